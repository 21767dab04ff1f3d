(** C39, at the level of the data types used by the other models: a clone is equal to its original,
    up to the documented exceptions; and concrete heaps for the theorems of CloneHeap.v. *)
From Verif Require Import Clone EvalProofs CloneHeap.
Open Scope string_scope.
Open Scope list_scope.

(** No delivery has been counted on this task or on any task inside it. *)
Fixpoint undelivered (t : task) : Prop :=
  t_redelivered t = 0%Z /\
  fold_right and True (map undelivered (t_pre t)) /\
  fold_right and True (map undelivered (t_post t)) /\
  fold_right and True (map undelivered (t_sidecars t)) /\
  match t_parallel t with None => True | Some p => fold_right and True (map undelivered (p_tasks p)) end /\
  match t_each t with None => True | Some e => undelivered (e_task e) end /\
  match t_subjob t with None => True | Some s => fold_right and True (map undelivered (s_tasks s)) end.

Lemma map_clone l : Forall (fun t => undelivered t -> clone_task t = t) l ->
  fold_right and True (map undelivered l) -> map clone_task l = l.
Proof.
  induction 1 as [|t l Ht _ IH]; cbn; [reflexivity|]. intros [H1 H2]. rewrite Ht, IH by assumption. reflexivity.
Qed.
Lemma option_map_same {A} (f : A -> A) o : (forall a, f a = a) -> option_map f o = o.
Proof. destruct o; cbn; intros H; [rewrite H|]; reflexivity. Qed.
Lemma map_same {A} (f : A -> A) l : (forall a, f a = a) -> map f l = l.
Proof. intros H. induction l; cbn; [reflexivity|]. rewrite H, IHl. reflexivity. Qed.

Theorem C39_task_clone_equal : forall t, undelivered t -> clone_task t = t.
Proof.
  induction t as [t (I1 & I2 & I3 & I4 & I5 & I6)] using task_nested_ind.
  intros H. destruct t. cbn in *. destruct H as (H0 & H1 & H2 & H3 & H4 & H5 & H6).
  rewrite !map_clone by assumption. subst t_redelivered.
  rewrite (map_same clone_mount) by (intros []; reflexivity).
  rewrite (option_map_same clone_registry) by (intros []; reflexivity).
  rewrite (option_map_same clone_retry) by (intros []; reflexivity).
  rewrite (option_map_same clone_limits) by (intros []; reflexivity).
  rewrite (option_map_same clone_probe) by (intros []; reflexivity).
  f_equal.
  - destruct t_parallel as [p|]; [|reflexivity]. rewrite map_clone; [destruct p; reflexivity|apply (I4 p eq_refl)|exact H4].
  - destruct t_each as [e|]; [|reflexivity]. rewrite (I5 e eq_refl H5). destruct e; reflexivity.
  - destruct t_subjob as [s|]; [|reflexivity]. rewrite map_clone; [|apply (I6 s eq_refl)|exact H6].
    rewrite (map_same clone_webhook) by (intros []; reflexivity).
    rewrite (option_map_same clone_autodelete) by (intros []; reflexivity). destruct s; reflexivity.
Qed.
Print Assumptions C39_task_clone_equal.

(** What a job must not use for its clone to be equal: the documented exceptions. *)
Definition no_password (u : user) : Prop := u_password u = "".
Definition one_of (p : permission) : Prop :=
  match pm_role p, pm_user p with
  | Some _, None => True
  | None, Some u => no_password u
  | _, _ => False
  end.
Theorem C39_job_clone_equal : forall j,
  j_deleteat j = None -> (forall u, j_createdby j = Some u -> no_password u) ->
  Forall one_of (j_permissions j) -> Forall undelivered (j_tasks j) -> Forall undelivered (j_execution j) ->
  clone_job j = Some j.
Proof.
  intros j Hd Hu Hp Ht He. unfold clone_job.
  assert (Ep : clone_permissions (j_permissions j) = Some (j_permissions j)).
  { induction Hp as [|p l H _ IH]; [reflexivity|]. cbn. rewrite IH. destruct p as [[r|] [u|]]; cbn in *; try contradiction.
    - destruct r; reflexivity.
    - unfold no_password in H. destruct u; cbn in *; subst; reflexivity. }
  rewrite Ep. destruct j; cbn in *. subst.
  assert (Hm : forall l, Forall undelivered l -> map clone_task l = l).
  { induction 1 as [|t l H _ IH]; cbn; [reflexivity|]. rewrite C39_task_clone_equal, IH by exact H. reflexivity. }
  rewrite !Hm by assumption.
  rewrite (map_same clone_webhook) by (intros []; reflexivity).
  rewrite (option_map_same clone_autodelete) by (intros []; reflexivity).
  rewrite (option_map_same clone_schedule) by (intros []; reflexivity).
  rewrite (option_map_same clone_defaults).
  2:{ intros []. unfold clone_defaults; cbn. rewrite (option_map_same clone_retry) by (intros []; reflexivity).
      rewrite (option_map_same clone_limits) by (intros []; reflexivity). reflexivity. }
  assert (Ec : clone_ctx j_context = j_context) by (destruct j_context; reflexivity). rewrite Ec.
  destruct j_createdby as [u|]; [|reflexivity]. specialize (Hu u eq_refl). unfold no_password in Hu. destruct u; cbn in *; subst; reflexivity.
Qed.
Print Assumptions C39_job_clone_equal.

(** The exceptions are real. *)
Definition blank : task :=
  mkTask noid noid noid 0 "" "" TCreated None None None None None [] [] "" "" None [] [] "" 0 "" [] [] [] [] [] noid None None "" "" ""
    "" None None None "" [] "" 0 0 None.
Definition blankj : job :=
  mkJob noid noid "" "" [] JPending 0 None None None None [] [] 0 [] (mkCtx [] [] [] []) 0 "" "" "" None [] [] None None [] 0 None.
Theorem C39_clone_forgets_refuted :
  (exists t, t_redelivered t = 3%Z /\ t_redelivered (clone_task t) = 0%Z) /\
  (exists j j', j_deleteat j = Some 7%Z /\ clone_job j = Some j' /\ j_deleteat j' = None) /\
  (exists j j' u u', j_createdby j = Some u /\ u_password u = "pw" /\ clone_job j = Some j' /\ j_createdby j' = Some u' /\ u_password u' = "") /\
  (exists j j' p u, j_permissions j = [p] /\ pm_user p = Some u /\ clone_job j = Some j' /\ map pm_user (j_permissions j') = [None]) /\
  (exists j, j_permissions j = [mkPermission None None] /\ clone_job j = None).
Proof.
  set (u := mkUser 1%N "n" "n" "h" "pw" None false). set (r := mkRole 2%N "s" "n" None).
  split; [exists (blank <| t_redelivered := 3%Z |>); split; reflexivity|].
  split; [exists (blankj <| j_deleteat := Some 7%Z |>); eexists; split; [reflexivity|split; reflexivity]|].
  split; [exists (blankj <| j_createdby := Some u |>); do 3 eexists; repeat (split; [reflexivity|]); reflexivity|].
  split; [exists (blankj <| j_permissions := [mkPermission (Some r) (Some u)] |>); do 3 eexists; repeat (split; [reflexivity|]); reflexivity|].
  exists (blankj <| j_permissions := [mkPermission None None] |>). split; reflexivity.
Qed.
Print Assumptions C39_clone_forgets_refuted.

Example C39_equal_nonvacuous : exists t j,
  undelivered t /\ t_pre t <> [] /\ (exists e, t_each t = Some e /\ exists s, t_subjob (e_task e) = Some s /\ s_tasks s <> []) /\
  j_tasks j = [t] /\ Forall undelivered (j_tasks j) /\ Forall one_of (j_permissions j) /\ length (j_permissions j) = 2%nat.
Proof.
  set (inner := blank <| t_subjob := Some (mkSubJob noid "s" "" [blank] [("a", "b")] [] None "" false []) |>).
  set (t := blank <| t_pre := [blank] |> <| t_each := Some (mkEach "x" "l" inner 0 0 0 0)%Z |>).
  exists t, (blankj <| j_tasks := [t] |> <| j_permissions := [mkPermission (Some (mkRole 2%N "s" "n" None)) None; mkPermission None (Some (mkUser 1%N "n" "n" "h" "" None false))] |>).
  split; [cbn; tauto|]. split; [discriminate|]. split; [eexists; split; [reflexivity|]; eexists; split; [reflexivity|discriminate]|].
  split; [reflexivity|]. split; [repeat constructor|]. split; [repeat constructor|reflexivity].
Qed.

(** ** Concrete heaps *)
Open Scope nat_scope.
(** A struct with the given fields set and zero values elsewhere. *)
Definition make (k : kind) (set : fields) : cell :=
  (k, match decl k with
      | inl ds => map (fun d => (fst d, match lookup (fst d) set with
                                        | Some v => v
                                        | None => match snd d with TScal => Scal "" | TRef _ => Nil end
                                        end)) ds
      | inr _ => set
      end).
Definition typedb (h : heap) (t : ftype) (v : value) : bool :=
  match t, v with
  | TScal, Scal _ => true
  | TRef _, Nil => true
  | TRef k, Ptr m => match nth_error h m with Some (k', _) => if kind_eq_dec k k' then true else false | None => false end
  | _, _ => false
  end.
Fixpoint fields_okb (h : heap) (ds : list (string * ftype)) (fs : fields) : bool :=
  match ds, fs with
  | [], [] => true
  | (f, t) :: ds, (g, v) :: fs => String.eqb g f && typedb h t v && fields_okb h ds fs
  | _, _ => false
  end.
Fixpoint nodupb (l : list string) : bool :=
  match l with [] => true | x :: r => negb (existsb (String.eqb x) r) && nodupb r end.
Definition cell_okb (h : heap) (c : cell) : bool :=
  match decl (fst c) with
  | inl ds => fields_okb h ds (snd c)
  | inr t => nodupb (map fst (snd c)) && forallb (fun fv => typedb h t (snd fv)) (snd c)
  end.
Lemma typedb_ok h t v : typedb h t v = true -> typed h t v.
Proof.
  destruct t, v; cbn; try discriminate; auto.
  destruct (nth_error h l) as [[k' fs]|]; [|discriminate]. destruct (kind_eq_dec k k') as [->|]; [eauto|discriminate].
Qed.
Lemma wfb_ok h : forallb (cell_okb h) h = true -> wf h.
Proof.
  intros H. unfold wf. rewrite Forall_forall. rewrite forallb_forall in H. intros [k fs] Hin. specialize (H _ Hin).
  unfold cell_okb in H. unfold cell_ok. cbn [fst snd] in *. destruct (decl k) as [ds|t].
  - clear Hin. revert fs H. induction ds as [|[f t] ds IH]; intros [|[g v] fs] H; cbn in H; try discriminate; constructor.
    + apply andb_prop in H as [H _]. apply andb_prop in H as [E T]. apply String.eqb_eq in E. split; [exact E|apply typedb_ok; exact T].
    + apply andb_prop in H as [_ H]. apply IH; exact H.
  - apply andb_prop in H as [N H]. split.
    + clear -N. induction (map fst fs) as [|x l IH]; [constructor|]. cbn in N. apply andb_prop in N as [N1 N2]. constructor; [|auto].
      intros Hin. apply negb_true_iff in N1. assert (existsb (String.eqb x) l = true); [|congruence].
      apply existsb_exists. exists x. split; [exact Hin|apply String.eqb_refl].
    + rewrite Forall_forall. rewrite forallb_forall in H. intros fv Hf. apply typedb_ok. apply H; exact Hf.
Qed.

(** A task with an environment, a command, a pre-task and an each task whose body has files and a command. *)
Definition demo_heap : heap :=
  [ make KTask [("Name", Scal "t"); ("Env", Ptr 1); ("CMD", Ptr 2); ("Pre", Ptr 3); ("Each", Ptr 5); ("Redelivered", Scal "2"); ("CreatedAt", Ptr 9)];
    make KMap [("k", Scal "v")];
    make KStrings [("0", Scal "{{x}}")];
    make KTasks [("0", Ptr 4)];
    make KTask [("Name", Scal "pre")];
    make KEach [("List", Scal "xs"); ("Task", Ptr 6)];
    make KTask [("Name", Scal "body"); ("Files", Ptr 7); ("CMD", Ptr 8)];
    make KMap [("f", Scal "data")];
    make KStrings [("0", Scal "{{item}}")];
    make KTime [("ns", Scal "5")] ].
Definition demo_clone : heap * loc := match clone 10 demo_heap 0 with Ok r => r | _ => ([], 0) end.

Example demo_wf : wf demo_heap.
Proof. apply wfb_ok. vm_compute. reflexivity. Qed.
Example C39_heap_nonvacuous :
  clone 10 demo_heap 0 = Ok demo_clone /\
  faithful_path demo_heap (Ptr 0) ["Each"; "Task"; "Files"; "f"] = true /\
  read (fst demo_clone) (Ptr (snd demo_clone)) ["Each"; "Task"; "Files"; "f"] = OScal "data" /\
  faithful_path demo_heap (Ptr 0) ["Redelivered"] = false.
Proof. vm_compute. repeat split. Qed.

(** Overwriting, through the clone, the files of the body of its each task is a permitted change. *)
Definition body_files : loc := 20.
Example C39_mutation_nonvacuous :
  read (fst demo_clone) (Ptr (snd demo_clone)) ["Each"; "Task"; "Files"; "f"] = OScal "data" /\
  mutate (fun m => m < length demo_heap) (snd demo_clone) (fst demo_clone)
    (replace (fst demo_clone) body_files (KMap, [("f", Scal "changed"); ("g", Scal "new")])) /\
  read (replace (fst demo_clone) body_files (KMap, [("f", Scal "changed"); ("g", Scal "new")]))
    (Ptr (snd demo_clone)) ["Each"; "Task"; "Files"; "f"] = OScal "changed" /\
  read (replace (fst demo_clone) body_files (KMap, [("f", Scal "changed"); ("g", Scal "new")]))
    (Ptr 0) ["Each"; "Task"; "Files"; "f"] = OScal "data".
Proof.
  split; [vm_compute; reflexivity|]. split; [|split; vm_compute; reflexivity].
  eapply (mut_write _ _ _ body_files KMap [("f", Scal "data")]); [|vm_compute; reflexivity| |apply mut_refl].
  - eapply (reach_step _ _ 25) with (f := "Files"); [|vm_compute; reflexivity| |vm_compute; reflexivity|reflexivity].
    2:{ vm_compute. intuition. }
    eapply (reach_step _ _ 26) with (f := "Task"); [|vm_compute; reflexivity| |vm_compute; reflexivity|reflexivity].
    2:{ vm_compute. intuition. }
    eapply (reach_step _ _ 27) with (f := "Each"); [|vm_compute; reflexivity| |vm_compute; reflexivity|reflexivity].
    2:{ vm_compute. intuition. }
    apply reach_here.
  - intros f m [E|[E|[]]]; discriminate E.
Qed.

(** String slices are shared: assigning an element of the clone's command, as the evaluation of a task
    does (internal/eval/eval.go:86-93), changes the original's command. *)
Theorem C39_shared_command_refuted : exists h l h' l' m fs fs2,
  wf h /\ clone 10 h l = Ok (h', l') /\
  read h (Ptr l) ["CMD"; "0"] = OScal "{{x}}" /\
  lookup "CMD" fs = Some (Ptr m) /\ nth_error h' l' = Some (KTask, fs) /\
  nth_error h' m = Some (KStrings, fs2) /\
  read (replace h' m (KStrings, [("0", Scal "evaluated")])) (Ptr l) ["CMD"; "0"] = OScal "evaluated".
Proof.
  exists demo_heap, 0, (fst demo_clone), (snd demo_clone), 2. do 2 eexists.
  split; [apply demo_wf|]. split; [vm_compute; reflexivity|]. split; [vm_compute; reflexivity|].
  split; [|split; [vm_compute; reflexivity|split; vm_compute; reflexivity]].
  vm_compute. reflexivity.
Qed.
Print Assumptions C39_shared_command_refuted.

(** A nil element or a nil each body is a nil dereference. *)
Theorem C39_nil_panics_refuted :
  (exists h, wf h /\ clone 10 h 0 = Panic /\ read h (Ptr 0) ["Pre"; "0"] = ONil) /\
  (exists h, wf h /\ clone 10 h 0 = Panic /\ read h (Ptr 0) ["Task"] = ONil).
Proof.
  split.
  - exists [make KTask [("Pre", Ptr 1)]; make KTasks [("0", Nil)]]. split; [apply wfb_ok; vm_compute; reflexivity|vm_compute; auto].
  - exists [make KEach []]. split; [apply wfb_ok; vm_compute; reflexivity|vm_compute; auto].
Qed.
Print Assumptions C39_nil_panics_refuted.
