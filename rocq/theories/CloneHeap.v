(** C39: clones of tasks and jobs are complete and independent of the original.

    Go objects are modelled as a heap of cells.  A cell is a struct (its fields by name), a map
    (its entries by key) or the backing array of a slice (its elements by index).  The struct
    declarations ([decl]) and the Clone methods ([rules]) are transcribed separately. *)
From Coq Require Import String List Bool Arith Lia.
Import ListNotations.
Open Scope string_scope.
Open Scope list_scope.

(** One kind per Go type that can be the target of a pointer, map or slice header. *)
Inductive kind :=
| KTask | KJob | KScheduledJob | KRetry | KLimits | KEach | KSubJob | KParallel | KRegistry | KProbe
| KMount | KWebhook | KPermission | KUser | KRole | KAutoDelete | KDefaults | KSchedule | KNode
| KMap       (* map[string]string *)
| KTasks | KMounts | KWebhooks | KPermissions   (* []*Task, []*Mount, []*Webhook, []*Permission *)
| KStrings   (* []string *)
| KTime.     (* time.Time behind a *time.Time *)

Definition kind_eq_dec (a b : kind) : {a = b} + {a <> b}.
Proof. decide equality. Defined.

Definition loc := nat.
(** A scalar (string, int, bool, float64, state, time.Time by value; [Scal ""] is the zero value of
    its type), the nil pointer/map/slice, or a reference. *)
Inductive value := Scal (s : string) | Nil | Ptr (l : loc).
Definition fields := list (string * value).
Definition cell : Type := kind * fields.
Definition heap := list cell.

(* ------------------------------------------------------------------------------------------- *)
(** * Struct declarations *)

Inductive ftype := TScal | TRef (k : kind).
Definition T (f : string) (t : ftype) := (f, t).

(** task.go:34-78 *)
Definition decl_task : list (string * ftype) :=
  [ ("ID", TScal); ("JobID", TScal); ("ParentID", TScal); ("Position", TScal); ("Name", TScal);
    ("Description", TScal); ("State", TScal); ("CreatedAt", TRef KTime); ("ScheduledAt", TRef KTime);
    ("StartedAt", TRef KTime); ("CompletedAt", TRef KTime); ("FailedAt", TRef KTime);
    ("CMD", TRef KStrings); ("Entrypoint", TRef KStrings); ("Run", TScal); ("Image", TScal);
    ("Registry", TRef KRegistry); ("Env", TRef KMap); ("Files", TRef KMap); ("Queue", TScal);
    ("Redelivered", TScal); ("Error", TScal); ("Pre", TRef KTasks); ("Post", TRef KTasks);
    ("Sidecars", TRef KTasks); ("Mounts", TRef KMounts); ("Networks", TRef KStrings); ("NodeID", TScal);
    ("Retry", TRef KRetry); ("Limits", TRef KLimits); ("Timeout", TScal); ("Result", TScal);
    ("Var", TScal); ("If", TScal); ("Parallel", TRef KParallel); ("Each", TRef KEach);
    ("SubJob", TRef KSubJob); ("GPUs", TScal); ("Tags", TRef KStrings); ("Workdir", TScal);
    ("Priority", TScal); ("Progress", TScal); ("Probe", TRef KProbe) ].

(** job.go:28-57; the embedded [Context] struct (job.go:132-137) is four fields. *)
Definition decl_job : list (string * ftype) :=
  [ ("ID", TScal); ("ParentID", TScal); ("Name", TScal); ("Description", TScal); ("Tags", TRef KStrings);
    ("State", TScal); ("CreatedAt", TScal); ("CreatedBy", TRef KUser); ("StartedAt", TRef KTime);
    ("CompletedAt", TRef KTime); ("FailedAt", TRef KTime); ("Tasks", TRef KTasks);
    ("Execution", TRef KTasks); ("Position", TScal); ("Inputs", TRef KMap);
    ("Context.Job", TRef KMap); ("Context.Inputs", TRef KMap); ("Context.Secrets", TRef KMap);
    ("Context.Tasks", TRef KMap); ("TaskCount", TScal); ("Output", TScal); ("Result", TScal);
    ("Error", TScal); ("Defaults", TRef KDefaults); ("Webhooks", TRef KWebhooks);
    ("Permissions", TRef KPermissions); ("AutoDelete", TRef KAutoDelete); ("DeleteAt", TRef KTime);
    ("Secrets", TRef KMap); ("Progress", TScal); ("Schedule", TRef KSchedule) ].

(** job.go:59-76 *)
Definition decl_scheduled : list (string * ftype) :=
  [ ("ID", TScal); ("Name", TScal); ("Description", TScal); ("Cron", TScal); ("State", TScal);
    ("Inputs", TRef KMap); ("Tasks", TRef KTasks); ("CreatedBy", TRef KUser); ("Defaults", TRef KDefaults);
    ("AutoDelete", TRef KAutoDelete); ("Webhooks", TRef KWebhooks); ("Permissions", TRef KPermissions);
    ("CreatedAt", TScal); ("Tags", TRef KStrings); ("Secrets", TRef KMap); ("Output", TScal) ].

(** task.go:106-153, mount.go:11-17, job.go:78-81,123-152, user.go:12-20, role.go:9-14, node.go:18-30.
    [inl] lists a struct's fields; [inr] is the element type of a map or slice. *)
Definition decl (k : kind) : list (string * ftype) + ftype :=
  match k with
  | KTask => inl decl_task
  | KJob => inl decl_job
  | KScheduledJob => inl decl_scheduled
  | KRetry => inl [("Limit", TScal); ("Attempts", TScal)]
  | KLimits => inl [("CPUs", TScal); ("Memory", TScal)]
  | KEach => inl [("Var", TScal); ("List", TScal); ("Task", TRef KTask); ("Size", TScal);
                  ("Completions", TScal); ("Concurrency", TScal); ("Index", TScal)]
  | KSubJob => inl [("ID", TScal); ("Name", TScal); ("Description", TScal); ("Tasks", TRef KTasks);
                    ("Inputs", TRef KMap); ("Secrets", TRef KMap); ("AutoDelete", TRef KAutoDelete);
                    ("Output", TScal); ("Detached", TScal); ("Webhooks", TRef KWebhooks)]
  | KParallel => inl [("Tasks", TRef KTasks); ("Completions", TScal)]
  | KRegistry => inl [("Username", TScal); ("Password", TScal)]
  | KProbe => inl [("Path", TScal); ("Port", TScal); ("Timeout", TScal)]
  | KMount => inl [("ID", TScal); ("Type", TScal); ("Source", TScal); ("Target", TScal); ("Opts", TRef KMap)]
  | KWebhook => inl [("URL", TScal); ("Headers", TRef KMap); ("Event", TScal); ("If", TScal)]
  | KPermission => inl [("Role", TRef KRole); ("User", TRef KUser)]
  | KUser => inl [("ID", TScal); ("Name", TScal); ("Username", TScal); ("PasswordHash", TScal);
                  ("Password", TScal); ("CreatedAt", TRef KTime); ("Disabled", TScal)]
  | KRole => inl [("ID", TScal); ("Slug", TScal); ("Name", TScal); ("CreatedAt", TRef KTime)]
  | KAutoDelete => inl [("After", TScal)]
  | KDefaults => inl [("Retry", TRef KRetry); ("Limits", TRef KLimits); ("Timeout", TScal);
                      ("Queue", TScal); ("Priority", TScal)]
  | KSchedule => inl [("ID", TScal); ("Cron", TScal)]
  | KNode => inl [("ID", TScal); ("Name", TScal); ("StartedAt", TScal); ("CPUPercent", TScal);
                  ("LastHeartbeatAt", TScal); ("Queue", TScal); ("Status", TScal); ("Hostname", TScal);
                  ("Port", TScal); ("TaskCount", TScal); ("Version", TScal)]
  | KMap => inr TScal
  | KTasks => inr (TRef KTask)
  | KMounts => inr (TRef KMount)
  | KWebhooks => inr (TRef KWebhook)
  | KPermissions => inr (TRef KPermission)
  | KStrings => inr TScal
  | KTime => inl [("ns", TScal)]
  end.

Definition is_slice (k : kind) : bool :=
  match k with KTasks | KMounts | KWebhooks | KPermissions | KStrings => true | _ => false end.

(* ------------------------------------------------------------------------------------------- *)
(** * The Clone methods *)

(** How one field of the literal is computed:
    [Share]: the value itself;  [Deep]: nil, or a clone of the target ([if x != nil { … x.Clone() }],
    [maps.Clone]);  [Slice k]: CloneTasks and its kin, which return a fresh array even for nil;
    [Must]: [x.Clone()] without a nil check (a nil dereference otherwise). *)
Inductive rule := Share | Deep | Slice (k : kind) | Must.

(** task.go:159-232.  [Redelivered] does not occur in the literal. *)
Definition rules_task : list (string * rule) :=
  [ ("ID", Share); ("JobID", Share); ("ParentID", Share); ("Position", Share); ("Name", Share);
    ("State", Share); ("CreatedAt", Share); ("ScheduledAt", Share); ("StartedAt", Share);
    ("CompletedAt", Share); ("FailedAt", Share); ("CMD", Share); ("Entrypoint", Share); ("Run", Share);
    ("Image", Share); ("Registry", Deep); ("Env", Deep); ("Files", Deep); ("Queue", Share);
    ("Error", Share); ("Pre", Slice KTasks); ("Post", Slice KTasks); ("Sidecars", Slice KTasks);
    ("Mounts", Slice KMounts); ("Networks", Share); ("NodeID", Share); ("Retry", Deep); ("Limits", Deep);
    ("Timeout", Share); ("Result", Share); ("Var", Share); ("If", Share); ("Parallel", Deep);
    ("Each", Deep); ("Description", Share); ("SubJob", Deep); ("GPUs", Share); ("Tags", Share);
    ("Workdir", Share); ("Priority", Share); ("Progress", Share); ("Probe", Deep) ].

(** job.go:154-200 and 235-242.  [DeleteAt] does not occur in the literal. *)
Definition rules_job : list (string * rule) :=
  [ ("ID", Share); ("Name", Share); ("Description", Share); ("Tags", Share); ("State", Share);
    ("CreatedAt", Share); ("CreatedBy", Deep); ("StartedAt", Share); ("CompletedAt", Share);
    ("FailedAt", Share); ("Tasks", Slice KTasks); ("Execution", Slice KTasks); ("Position", Share);
    ("Inputs", Deep); ("Secrets", Deep); ("Context.Inputs", Deep); ("Context.Secrets", Deep);
    ("Context.Tasks", Deep); ("Context.Job", Deep); ("ParentID", Share); ("TaskCount", Share);
    ("Output", Share); ("Result", Share); ("Error", Share); ("Defaults", Deep);
    ("Webhooks", Slice KWebhooks); ("Permissions", Slice KPermissions); ("AutoDelete", Deep);
    ("Progress", Share); ("Schedule", Deep) ].

(** job.go:202-233 *)
Definition rules_scheduled : list (string * rule) :=
  [ ("ID", Share); ("Cron", Share); ("Name", Share); ("Description", Share); ("Tags", Share);
    ("CreatedAt", Share); ("CreatedBy", Deep); ("Tasks", Slice KTasks); ("Inputs", Deep);
    ("Secrets", Deep); ("Output", Share); ("Defaults", Deep); ("Webhooks", Slice KWebhooks);
    ("Permissions", Slice KPermissions); ("AutoDelete", Deep); ("State", Share) ].

Definition is_nil (v : value) : bool := match v with Nil => true | _ => false end.
Fixpoint lookup {A} (f : string) (l : list (string * A)) : option A :=
  match l with
  | [] => None
  | (g, v) :: r => if String.eqb f g then Some v else lookup f r
  end.

(** task.go:242-307, job.go:83-88,253-265,312-343, mount.go:19-27, user.go:22-31, role.go:16-23,
    node.go:32-46, [maps.Clone] (map entries are copied), and the element loops of CloneTasks
    (task.go:234-240), CloneMounts (mount.go:29-35), CloneWebhooks (job.go:304-310) and
    ClonePermissions (job.go:321-327).  job.go:329-337: a permission clones its role if it has one
    and its user otherwise.  [None]: the field keeps its zero value. *)
Definition rule_for (k : kind) (obj : fields) (f : string) : option rule :=
  match k with
  | KTask => lookup f rules_task
  | KJob => lookup f rules_job
  | KScheduledJob => lookup f rules_scheduled
  | KRetry => lookup f [("Limit", Share); ("Attempts", Share)]
  | KLimits => lookup f [("CPUs", Share); ("Memory", Share)]
  | KEach => lookup f [("Var", Share); ("List", Share); ("Task", Must); ("Size", Share);
                       ("Completions", Share); ("Concurrency", Share); ("Index", Share)]
  | KSubJob => lookup f [("ID", Share); ("Name", Share); ("Description", Share); ("Inputs", Deep);
                         ("Secrets", Deep); ("AutoDelete", Deep); ("Tasks", Slice KTasks);
                         ("Output", Share); ("Detached", Share); ("Webhooks", Slice KWebhooks)]
  | KParallel => lookup f [("Tasks", Slice KTasks); ("Completions", Share)]
  | KRegistry => lookup f [("Username", Share); ("Password", Share)]
  | KProbe => lookup f [("Path", Share); ("Port", Share); ("Timeout", Share)]
  | KMount => lookup f [("ID", Share); ("Type", Share); ("Source", Share); ("Target", Share); ("Opts", Deep)]
  | KWebhook => lookup f [("URL", Share); ("Headers", Deep); ("Event", Share); ("If", Share)]
  | KPermission =>
      match lookup "Role" obj with
      | Some (Ptr _) => lookup f [("Role", Must)]
      | _ => lookup f [("User", Must)]
      end
  | KUser => lookup f [("ID", Share); ("Name", Share); ("Username", Share); ("PasswordHash", Share);
                       ("CreatedAt", Share); ("Disabled", Share)]
  | KRole => lookup f [("ID", Share); ("Slug", Share); ("Name", Share); ("CreatedAt", Share)]
  | KAutoDelete => lookup f [("After", Share)]
  | KDefaults => lookup f [("Limits", Deep); ("Retry", Deep); ("Queue", Share); ("Timeout", Share);
                           ("Priority", Share)]
  | KSchedule => lookup f [("ID", Share); ("Cron", Share)]
  | KNode => lookup f [("ID", Share); ("Name", Share); ("StartedAt", Share); ("CPUPercent", Share);
                       ("LastHeartbeatAt", Share); ("Queue", Share); ("Status", Share);
                       ("Hostname", Share); ("Port", Share); ("TaskCount", Share); ("Version", Share)]
  | KMap => Some Share
  | KTasks | KMounts | KWebhooks | KPermissions => Some Must
  | KStrings => Some Share
  | KTime => Some Share
  end.

(** [Panic] is a nil dereference; [NoFuel] that the recursion was cut short (an infinite,
    cyclic object on which the Go program would not return). *)
Inductive res (A : Type) := Ok (a : A) | Panic | NoFuel.
Arguments Ok {A}. Arguments Panic {A}. Arguments NoFuel {A}.

Definition zero (v : value) : value := match v with Scal _ => Scal "" | _ => Nil end.

Section Body.
  Variable rec : heap -> loc -> res (heap * loc).
  Definition clone_ref (h : heap) (l : loc) : res (heap * value) :=
    match rec h l with Ok (h', l') => Ok (h', Ptr l') | Panic => Panic | NoFuel => NoFuel end.
  Definition clone_value (r : option rule) (h : heap) (v : value) : res (heap * value) :=
    match r with
    | None => Ok (h, zero v)
    | Some Share => Ok (h, v)
    | Some Deep => match v with Ptr l => clone_ref h l | _ => Ok (h, v) end
    | Some (Slice k) => match v with
                        | Ptr l => clone_ref h l
                        | _ => Ok (h ++ [(k, [])], Ptr (length h))
                        end
    | Some Must => match v with Ptr l => clone_ref h l | _ => Panic end
    end.
  Fixpoint clone_fields (rl : string -> option rule) (h : heap) (fs : fields) : res (heap * fields) :=
    match fs with
    | [] => Ok (h, [])
    | (f, v) :: r =>
        match clone_value (rl f) h v with
        | Ok (h1, v1) =>
            match clone_fields rl h1 r with
            | Ok (h2, r2) => Ok (h2, (f, v1) :: r2)
            | Panic => Panic | NoFuel => NoFuel
            end
        | Panic => Panic | NoFuel => NoFuel
        end
    end.
End Body.

(** [x.Clone()] for the object at [l]: the heap afterwards and the clone's address. *)
Fixpoint clone (fuel : nat) (h : heap) (l : loc) : res (heap * loc) :=
  match fuel with
  | O => NoFuel
  | S n =>
      match nth_error h l with
      | None => Panic
      | Some (k, fs) =>
          match clone_fields (clone n) (rule_for k fs) h fs with
          | Ok (h1, fs1) => Ok (h1 ++ [(k, fs1)], length h1)
          | Panic => Panic | NoFuel => NoFuel
          end
      end
  end.

(* ------------------------------------------------------------------------------------------- *)
(** * Specification *)

(** A well-typed heap: each cell has exactly the declared fields, in order, and each value has the
    declared type. *)
Definition typed (h : heap) (t : ftype) (v : value) : Prop :=
  match t, v with
  | TScal, Scal _ => True
  | TRef _, Nil => True
  | TRef k, Ptr m => exists fs, nth_error h m = Some (k, fs)
  | _, _ => False
  end.
Definition cell_ok (h : heap) (c : cell) : Prop :=
  match decl (fst c) with
  | inl ds => Forall2 (fun d fv => fst fv = fst d /\ typed h (snd d) (snd fv)) ds (snd c)
  | inr t => NoDup (map fst (snd c)) /\ Forall (fun fv => typed h t (snd fv)) (snd c)
  end.
Definition wf (h : heap) : Prop := Forall (cell_ok h) h.

(** What a program reads at the end of a path of field names, map keys and slice indices.
    A nil slice and an empty one are the same observation (JSON and [range] cannot tell). *)
Inductive obs := OScal (s : string) | ONil | OObj (k : kind) (keys : list string) | OMissing.
Fixpoint read (h : heap) (v : value) (path : list string) : obs :=
  match path with
  | [] =>
      match v with
      | Scal s => OScal s
      | Nil => ONil
      | Ptr m => match nth_error h m with
                 | Some (k, fs) => if is_slice k && match fs with [] => true | _ => false end
                                   then ONil else OObj k (map fst fs)
                 | None => OMissing
                 end
      end
  | f :: p =>
      match v with
      | Ptr m => match nth_error h m with
                 | Some (_, fs) => match lookup f fs with
                                   | Some v' => read h v' p
                                   | None => OMissing
                                   end
                 | None => OMissing
                 end
      | _ => OMissing
      end
  end.

(** The documented exceptions. *)
Definition lossy (k : kind) (obj : fields) (f : string) : bool :=
  match k with
  | KTask => String.eqb f "Redelivered"
  | KJob => String.eqb f "DeleteAt"
  | KUser => String.eqb f "Password"
  | KPermission => String.eqb f "User" && match lookup "Role" obj with Some (Ptr _) => true | _ => false end
  | _ => false
  end.
(** A path that does not go through one of them. *)
Fixpoint faithful_path (h : heap) (v : value) (path : list string) : bool :=
  match path with
  | [] => true
  | f :: p =>
      match v with
      | Ptr m => match nth_error h m with
                 | Some (k, fs) => negb (lossy k fs f) &&
                     match lookup f fs with Some v' => faithful_path h v' p | None => true end
                 | None => true
                 end
      | _ => true
      end
  end.

(** Everything but string slices and time values is supposed to be the clone's own. *)
Definition own_kind (k : kind) : bool := match k with KStrings | KTime => false | _ => true end.

(** The cells a program can reach from [l] through sub-objects, maps and lists of objects. *)
Inductive reach (h : heap) (l : loc) : loc -> Prop :=
| reach_here : reach h l l
| reach_step m k fs f m' k' fs' :
    reach h l m -> nth_error h m = Some (k, fs) -> In (f, Ptr m') fs ->
    nth_error h m' = Some (k', fs') -> own_kind k' = true -> reach h l m'.

(** Mutations through the object at [root]: allocating a cell, and replacing the content of a
    reachable cell (a field assignment, a map insertion or deletion, a slice element assignment).
    [other] is the set of cells of the other object; the values stored introduce no reference to
    them, except to string slices and times. *)
Definition stores_ok (other : loc -> Prop) (h : heap) (fs : fields) : Prop :=
  forall f m, In (f, Ptr m) fs ->
    ~ other m \/ exists k fs', nth_error h m = Some (k, fs') /\ own_kind k = false.
Definition replace (h : heap) (m : loc) (c : cell) : heap :=
  firstn m h ++ c :: skipn (S m) h.
Inductive mutate (other : loc -> Prop) (root : loc) : heap -> heap -> Prop :=
| mut_refl h : mutate other root h h
| mut_alloc h k fs h' :
    stores_ok other h fs -> mutate other root (h ++ [(k, fs)]) h' -> mutate other root h h'
| mut_write h m k fs fs' h' :
    reach h root m -> nth_error h m = Some (k, fs) -> stores_ok other h fs' ->
    mutate other root (replace h m (k, fs')) h' -> mutate other root h h'.

(* ------------------------------------------------------------------------------------------- *)
(** * Proofs *)

Lemma lookup_In : forall A f (l : list (string * A)) v, lookup f l = Some v -> In (f, v) l.
Proof.
  induction l as [|[g w] l IH]; cbn; intros v H; [discriminate|].
  destruct (String.eqb_spec f g); [injection H as <-; subst; auto | right; auto].
Qed.

Lemma nth_app : forall A (h : list A) new m c, nth_error h m = Some c -> nth_error (h ++ new) m = Some c.
Proof.
  intros A h new m c H. rewrite nth_error_app1; [exact H|]. apply nth_error_Some. congruence.
Qed.

Lemma typed_app h new t v : typed h t v -> typed (h ++ new) t v.
Proof.
  destruct t, v; cbn; auto. intros [fs H]. exists fs. apply nth_app; exact H.
Qed.
Lemma cell_ok_app h new c : cell_ok h c -> cell_ok (h ++ new) c.
Proof.
  unfold cell_ok. destruct (decl (fst c)) as [ds|t].
  - intro H. induction H as [|d fv ds fs [E Ht] _ IH]; constructor; [split; [exact E|apply typed_app; exact Ht]|exact IH].
  - intros [H1 H2]. split; [exact H1|]. eapply Forall_impl; [|exact H2]. intros fv Hf; apply typed_app; exact Hf.
Qed.

Lemma cell_typed h k fs f v : cell_ok h (k, fs) -> In (f, v) fs -> exists t, typed h t v.
Proof.
  unfold cell_ok; cbn. destruct (decl k) as [ds|t].
  - intros H Hin. induction H as [|d fv ds fs' [E Ht] _ IH]; [destruct Hin|].
    destruct Hin as [->|Hin]; [exists (snd d); exact Ht|auto].
  - intros [_ H] Hin. exists t. rewrite Forall_forall in H. apply (H _ Hin).
Qed.

Lemma wf_nth h m k fs : wf h -> nth_error h m = Some (k, fs) -> cell_ok h (k, fs).
Proof. intros H E. unfold wf in H. rewrite Forall_forall in H. apply H. eapply nth_error_In; exact E. Qed.

Lemma read_app h new : wf h -> forall p t v, typed h t v -> read (h ++ new) v p = read h v p.
Proof.
  intros Hwf. induction p as [|f p IH]; intros t v Ht.
  - destruct t, v; cbn in *; auto; try contradiction. destruct Ht as [fs E].
    rewrite (nth_app _ _ _ _ _ E), E. reflexivity.
  - destruct t, v; cbn in *; auto; try contradiction. destruct Ht as [fs E].
    rewrite (nth_app _ _ _ _ _ E), E. destruct (lookup f fs) as [v|] eqn:L; [|reflexivity].
    destruct (cell_typed h k fs f v (wf_nth _ _ _ _ Hwf E) (lookup_In _ _ _ _ L)) as [t Ht].
    eapply IH; exact Ht.
Qed.
Lemma faithful_app h new : wf h -> forall p t v, typed h t v -> faithful_path (h ++ new) v p = faithful_path h v p.
Proof.
  intros Hwf. induction p as [|f p IH]; intros t v Ht; [reflexivity|].
  destruct t, v; cbn in *; auto; try contradiction. destruct Ht as [fs E].
  rewrite (nth_app _ _ _ _ _ E), E. destruct (lookup f fs) as [v|] eqn:L; [|reflexivity].
  destruct (cell_typed h k fs f v (wf_nth _ _ _ _ Hwf E) (lookup_In _ _ _ _ L)) as [t Ht].
  rewrite (IH t v Ht). reflexivity.
Qed.

(** The two tables fit: every declared field is handled according to its type, except the lossy ones. *)
Definition fits (r : option rule) (lf : bool) (t : ftype) (v : value) : Prop :=
  (lf = true /\ r = None)
  \/ (r = Some Share /\ match t with TScal => True | TRef k' => own_kind k' = false end)
  \/ (r = None /\ v = Nil)
  \/ (exists k', t = TRef k' /\ own_kind k' = true /\
        ((r = Some Deep /\ is_slice k' = false) \/ r = Some Must \/ (r = Some (Slice k') /\ is_slice k' = true))).

Ltac fit1 := first
  [ left; split; reflexivity
  | right; left; split; [reflexivity | first [exact I | reflexivity]]
  | right; right; right; eexists; split; [reflexivity|]; split; [reflexivity|];
    first [ left; split; reflexivity | right; left; reflexivity | right; right; split; reflexivity ] ].

Lemma struct_fits k ds obj f t v h :
  decl k = inl ds -> In (f, t) ds -> lookup f obj = Some v -> typed h t v ->
  fits (rule_for k obj f) (lossy k obj f) t v.
Proof.
  intros D Hin L Ht. unfold fits.
  destruct k; cbn in D; try discriminate D; injection D as <-;
    try (solve [cbn in Hin; repeat (destruct Hin as [Hin|Hin]; [injection Hin as <- <-; fit1|]); destruct Hin]).
  (* permissions *)
  cbn in Hin. destruct Hin as [Hin|[Hin|[]]]; injection Hin as <- <-; cbn [rule_for lossy].
  - rewrite L. destruct v; [destruct Ht| |].
    + right; right; left. split; reflexivity.
    + cbn. right; right; right. eexists; split; [reflexivity|]. split; [reflexivity|]. auto.
  - destruct (lookup "Role" obj) as [[| |]|]; cbn.
    + right; right; right. eexists; split; [reflexivity|]. split; [reflexivity|]. auto.
    + right; right; right. eexists; split; [reflexivity|]. split; [reflexivity|]. auto.
    + left; split; reflexivity.
    + right; right; right. eexists; split; [reflexivity|]. split; [reflexivity|]. auto.
Qed.

Lemma elem_fits k t obj f v h :
  decl k = inr t -> typed h t v -> fits (rule_for k obj f) (lossy k obj f) t v.
Proof.
  intros D Ht. unfold fits. destruct k; cbn in D; try discriminate D; injection D as <-; fit1.
Qed.

(** Fields of the cells from address [n] on refer to the cells from [n] on, or to shared kinds. *)
Definition fresh_refs (n : nat) (h : heap) (fs : fields) : Prop := stores_ok (fun m => m < n) h fs.
Definition closed (n : nat) (h : heap) : Prop :=
  forall m k fs, n <= m -> nth_error h m = Some (k, fs) -> fresh_refs n h fs.
Definition fresh_ref (n : nat) (h : heap) (v : value) : Prop :=
  forall m, v = Ptr m -> n <= m \/ exists k fs', nth_error h m = Some (k, fs') /\ own_kind k = false.

Lemma fresh_ref_app n h new v : fresh_ref n h v -> fresh_ref n (h ++ new) v.
Proof.
  intros H m E. destruct (H m E) as [|(k & fs & E1 & O)]; [auto|].
  right; exists k, fs. split; [apply nth_app; exact E1|exact O].
Qed.
Lemma fresh_ref_le n n' h v : n <= n' -> fresh_ref n' h v -> fresh_ref n h v.
Proof. intros L H m E. destruct (H m E) as [|X]; [left; lia|right; exact X]. Qed.
Lemma fresh_refs_all n h fs : fresh_refs n h fs <-> Forall (fun fv => fresh_ref n h (snd fv)) fs.
Proof.
  unfold fresh_refs, stores_ok, fresh_ref. rewrite Forall_forall. split.
  - intros H [f v] Hin m E. cbn in E; subst. destruct (H f m Hin) as [X|X]; [left; lia|right; exact X].
  - intros H f m Hin. destruct (H _ Hin m eq_refl) as [X|X]; [left; cbn; lia|right; exact X].
Qed.
Lemma closed_trans n h new1 h2 :
  closed n (h ++ new1) -> n <= length h -> (exists new2, h2 = (h ++ new1) ++ new2) ->
  closed (length (h ++ new1)) h2 -> closed n h2.
Proof.
  intros C L [new2 E] C2 m k fs Hm Em.
  destruct (Nat.lt_ge_cases m (length (h ++ new1))) as [Lt|Ge].
  - rewrite E, nth_error_app1 in Em by exact Lt.
    rewrite fresh_refs_all. pose proof (C m k fs Hm Em) as F. rewrite fresh_refs_all in F.
    eapply Forall_impl; [|exact F]. intros fv Hf. rewrite E. apply fresh_ref_app; exact Hf.
  - rewrite fresh_refs_all. pose proof (C2 m k fs Ge Em) as F. rewrite fresh_refs_all in F.
    eapply Forall_impl; [|exact F]. intros fv Hf. eapply fresh_ref_le; [|exact Hf].
    rewrite app_length; lia.
Qed.

Record copied (lf : bool) (t : ftype) (h : heap) (v : value) (h' : heap) (v' : value) : Prop := {
  cp_ext : exists new, h' = h ++ new;
  cp_wf : wf h';
  cp_closed : closed (length h) h';
  cp_typed : typed h' t v';
  cp_fresh : fresh_ref (length h) h' v';
  cp_read : lf = false -> forall p, faithful_path h v p = true -> read h' v' p = read h v p }.

Lemma closed_self h : closed (length h) h.
Proof. intros m k fs L E. apply nth_error_None in L. congruence. Qed.

Definition rec_ok (rec : heap -> loc -> res (heap * loc)) : Prop :=
  forall h l k fs h' l', wf h -> nth_error h l = Some (k, fs) -> rec h l = Ok (h', l') ->
    copied false (TRef k) h (Ptr l) h' (Ptr l').

Lemma clone_value_ok rec r lf t h v h' v' :
  rec_ok rec -> wf h -> typed h t v -> fits r lf t v ->
  clone_value rec r h v = Ok (h', v') -> copied lf t h v h' v'.
Proof.
  intros R Hwf Ht F E.
  assert (Eq0 : forall w, (lf = false -> w = v) -> typed h t w -> fresh_ref (length h) h w -> copied lf t h v h w).
  { intros w Hw Tw Fw. constructor; auto.
    - exists []. rewrite app_nil_r; reflexivity.
    - apply closed_self.
    - intros Z p _. rewrite (Hw Z). reflexivity. }
  destruct F as [[Z ->]|[[-> K]|[[-> ->]|(k' & -> & O & [[-> S]|[->|[-> S]]])]]].
  - injection E as <- <-. apply Eq0; [congruence| |].
    + destruct t, v; cbn in *; auto; contradiction.
    + intros m Em. destruct v; discriminate Em.
  - injection E as <- <-. apply Eq0; auto. intros m ->. destruct t as [|k']; [destruct Ht|].
    right. destruct Ht as [fs Em]. exists k', fs. auto.
  - injection E as <- <-. apply Eq0; [reflexivity| |].
    + destruct t; cbn in *; auto.
    + intros m Em; discriminate Em.
  - destruct v as [s| |l]; [destruct Ht| |].
    + injection E as <- <-. apply Eq0; auto. intros m Em; discriminate Em.
    + destruct Ht as [fs Em]. cbn in E. unfold clone_ref in E.
      destruct (rec h l) as [[h1 l1]| |] eqn:Er; try discriminate E. injection E as <- <-.
      destruct (R _ _ _ _ _ _ Hwf Em Er). constructor; auto.
  - destruct v as [s| |l]; [destruct Ht|discriminate E|].
    destruct Ht as [fs Em]. cbn in E. unfold clone_ref in E.
    destruct (rec h l) as [[h1 l1]| |] eqn:Er; try discriminate E. injection E as <- <-.
    destruct (R _ _ _ _ _ _ Hwf Em Er). constructor; auto.
  - destruct v as [s| |l]; [destruct Ht| |].
    + injection E as <- <-.
      assert (N : nth_error (h ++ [(k', [])]) (length h) = Some (k', [])).
      { rewrite nth_error_app2, Nat.sub_diag by lia. reflexivity. }
      constructor.
      * eexists; reflexivity.
      * apply Forall_app. split.
        -- eapply Forall_impl; [|exact Hwf]. intros c; apply cell_ok_app.
        -- constructor; [|constructor]. unfold cell_ok; cbn.
           destruct k'; cbn in S; try discriminate S; cbn; split; constructor.
      * intros m k fs L Em f m' Hin.
        destruct (Nat.eq_dec m (length h)) as [->|Ne].
        -- rewrite N in Em. injection Em as <- <-. destruct Hin.
        -- assert (nth_error (h ++ [(k', [])]) m = None) as X; [|congruence].
           apply nth_error_None. rewrite app_length; cbn; lia.
      * exists []. exact N.
      * intros m Em. injection Em as <-. left; lia.
      * intros _ p _. destruct p as [|f p].
        -- cbn [read]. rewrite N, S. reflexivity.
        -- cbn [read]. rewrite N. reflexivity.
    + destruct Ht as [fs Em]. cbn in E. unfold clone_ref in E.
      destruct (rec h l) as [[h1 l1]| |] eqn:Er; try discriminate E. injection E as <- <-.
      destruct (R _ _ _ _ _ _ Hwf Em Er). constructor; auto.
Qed.

Lemma clone_fields_ok rec rl lf ds : rec_ok rec -> forall fs h h' fs',
  wf h ->
  Forall2 (fun d fv => fst fv = fst d /\ typed h (snd d) (snd fv)
                       /\ fits (rl (fst d)) (lf (fst d)) (snd d) (snd fv)) ds fs ->
  clone_fields rec rl h fs = Ok (h', fs') ->
  (exists new, h' = h ++ new) /\ wf h' /\ closed (length h) h'
  /\ Forall2 (fun d fv => fst fv = fst d /\ typed h' (snd d) (snd fv)) ds fs'
  /\ Forall (fun fv => fresh_ref (length h) h' (snd fv)) fs'
  /\ Forall2 (fun fv fv' => fst fv' = fst fv /\
       (lf (fst fv) = false -> forall p, faithful_path h (snd fv) p = true ->
          read h' (snd fv') p = read h (snd fv) p)) fs fs'.
Proof.
  intro R. induction ds as [|d ds IH]; intros fs h h' fs' Hwf F E.
  - inversion F; subst. injection E as <- <-.
    split; [exists []; rewrite app_nil_r; reflexivity|]. split; [exact Hwf|].
    split; [apply closed_self|]. split; [constructor|]. split; [apply Forall_nil|constructor].
  - inversion F as [|? [f v] ? fs1 [Ef [Ht Hf]] F1]; subst. cbn in Ef, Ht, Hf. subst f.
    cbn [clone_fields] in E.
    destruct (clone_value rec (rl (fst d)) h v) as [[h1 v1]| |] eqn:Ev; try discriminate E.
    destruct (clone_fields rec rl h1 fs1) as [[h2 r2]| |] eqn:Er; try discriminate E.
    injection E as <- <-.
    destruct (clone_value_ok _ _ _ _ _ _ _ _ R Hwf Ht Hf Ev) as [[new1 E1] W1 C1 T1 Fr1 Rd1].
    assert (F1' : Forall2 (fun d fv => fst fv = fst d /\ typed h1 (snd d) (snd fv)
                       /\ fits (rl (fst d)) (lf (fst d)) (snd d) (snd fv)) ds fs1).
    { subst h1. clear -F1. induction F1 as [|d fv ds fs (A & B & C) _ IH]; constructor; auto.
      repeat split; auto. apply typed_app; exact B. }
    destruct (IH fs1 h1 h2 r2 W1 F1' Er) as ([new2 E2] & W2 & C2 & T2 & Fr2 & Rd2).
    split; [|split; [|split; [|split; [|split]]]].
    + exists (new1 ++ new2). subst. rewrite app_assoc; reflexivity.
    + exact W2.
    + subst h1. eapply closed_trans; [exact C1|lia|exists new2; exact E2|exact C2].
    + constructor; [split; [reflexivity|cbn; subst h2; apply typed_app; exact T1]|exact T2].
    + constructor; [cbn; subst h2; apply fresh_ref_app; exact Fr1|].
      eapply Forall_impl; [|exact Fr2]. intros fv Hfr. eapply fresh_ref_le; [|exact Hfr].
      subst h1. rewrite app_length; lia.
    + constructor.
      * split; [reflexivity|]. cbn. intros Z p Hp. subst h2.
        rewrite (read_app h1 new2 W1 p (snd d) v1 T1). apply Rd1; assumption.
      * clear -Rd2 F1 Hwf E1. subst h1. revert r2 Rd2.
        induction F1 as [|d fv ds fs (A & B & C) _ IH]; intros r2 Rd2; inversion Rd2 as [|? fv' ? r2' [En Rd] Rd2']; subst; constructor.
        -- split; [exact En|]. intros Z p Hp. rewrite (Rd Z p).
           ++ apply (read_app h new1 Hwf p _ _ B).
           ++ rewrite (faithful_app h new1 Hwf p _ _ B). exact Hp.
        -- apply IH; assumption.
Qed.

Lemma Forall2_names {A} (R : A -> A -> Prop) (g : A -> string) l l' :
  Forall2 (fun a b => g b = g a /\ R a b) l l' -> map g l' = map g l.
Proof. induction 1 as [|a b l l' [E _] _ IH]; cbn; [reflexivity|rewrite E, IH; reflexivity]. Qed.

Lemma lookup_rel (R : string -> value -> value -> Prop) fs fs' f :
  Forall2 (fun a b => fst b = fst a /\ R (fst a) (snd a) (snd b)) fs fs' ->
  match lookup f fs, lookup f fs' with
  | Some v, Some v' => R f v v'
  | None, None => True
  | _, _ => False
  end.
Proof.
  induction 1 as [|[g v] [g' v'] l l' [E Rv] _ IH]; cbn in *; [exact I|]. subst g'.
  destruct (String.eqb_spec f g); [subst; exact Rv|exact IH].
Qed.

Lemma In_lookup_nodup f v (fs : fields) : NoDup (map fst fs) -> In (f, v) fs -> lookup f fs = Some v.
Proof.
  induction fs as [|[g w] fs IH]; cbn; intros N Hin; [destruct Hin|].
  inversion N as [|? ? Nin N']; subst. destruct Hin as [E|Hin].
  - injection E as -> ->. rewrite String.eqb_refl. reflexivity.
  - destruct (String.eqb_spec f g); [subst|auto]. exfalso. apply Nin. change g with (fst (g, v)).
    apply in_map; exact Hin.
Qed.

Lemma decl_nodup k ds : decl k = inl ds -> NoDup (map fst ds).
Proof.
  intro D. destruct k; cbn in D; try discriminate D; injection D as <-; cbn;
    repeat (constructor; [cbn; intuition discriminate|]); constructor.
Qed.

Lemma clone_ok fuel : rec_ok (clone fuel).
Proof.
  induction fuel as [|n IH]; intros h l k fs h' l' Hwf El E; [discriminate E|].
  cbn [clone] in E. rewrite El in E.
  destruct (clone_fields (clone n) (rule_for k fs) h fs) as [[h1 fs1]| |] eqn:Ef; try discriminate E.
  injection E as <- <-.
  pose proof (wf_nth _ _ _ _ Hwf El) as CO.
  assert (Hds : exists ds, Forall2 (fun d fv => fst fv = fst d /\ typed h (snd d) (snd fv)
       /\ fits (rule_for k fs (fst d)) (lossy k fs (fst d)) (snd d) (snd fv)) ds fs
     /\ (forall h2 fs2, map fst fs2 = map fst fs ->
          Forall2 (fun d fv => fst fv = fst d /\ typed h2 (snd d) (snd fv)) ds fs2 -> cell_ok h2 (k, fs2))).
  { unfold cell_ok in CO. cbn [fst snd] in CO. destruct (decl k) as [ds|t] eqn:D.
    - exists ds. split.
      + assert (ND : NoDup (map fst fs)).
        { replace (map fst fs) with (map fst ds); [eapply decl_nodup; exact D|].
          clear -CO. induction CO as [|d fv ds fs [E _] _ IH]; cbn; [reflexivity|rewrite E, IH; reflexivity]. }
        assert (G : forall ds0 fs0, (forall d, In d ds0 -> In d ds) -> (forall fv, In fv fs0 -> In fv fs) ->
          Forall2 (fun d fv => fst fv = fst d /\ typed h (snd d) (snd fv)) ds0 fs0 ->
          Forall2 (fun d fv => fst fv = fst d /\ typed h (snd d) (snd fv)
            /\ fits (rule_for k fs (fst d)) (lossy k fs (fst d)) (snd d) (snd fv)) ds0 fs0).
        { intros ds0 fs0 I1 I2 F. induction F as [|[f t] [g v] ds0 fs0 [E1 E2] _ IHf]; constructor.
          - cbn in E1, E2. subst g. repeat split; auto. cbn.
            eapply struct_fits; [exact D|apply I1; left; reflexivity| |exact E2].
            apply In_lookup_nodup; [exact ND|apply I2; left; reflexivity].
          - apply IHf; intros; [apply I1|apply I2]; right; assumption. }
        apply G; auto.
      + intros h2 fs2 _ F2. unfold cell_ok; cbn. rewrite D. exact F2.
    - exists (map (fun fv => (fst fv, t)) fs). destruct CO as [ND CO]. split.
      + clear ND El Ef. assert (G : forall fs0, Forall (fun fv => typed h t (snd fv)) fs0 ->
          Forall2 (fun d fv => fst fv = fst d /\ typed h (snd d) (snd fv)
            /\ fits (rule_for k fs (fst d)) (lossy k fs (fst d)) (snd d) (snd fv))
            (map (fun fv => (fst fv, t)) fs0) fs0).
        { induction 1 as [|[f v] fs0 H _ IHf]; constructor; [|exact IHf].
          repeat split; auto. eapply elem_fits; [exact D|exact H]. }
        apply G; exact CO.
      + intros h2 fs2 En F2. unfold cell_ok; cbn. rewrite D. split; [rewrite En; exact ND|].
        clear -F2. remember (map (fun fv => (fst fv, t)) fs) as ds eqn:Ed.
        assert (Hall : Forall (fun d => snd d = t) ds).
        { subst ds. apply Forall_forall. intros d Hd. apply in_map_iff in Hd. destruct Hd as (fv & <- & _). reflexivity. }
        clear Ed. induction F2 as [|d fv ds' fs' [E1 E2] _ IHf]; constructor.
        * inversion Hall; subst. exact E2.
        * apply IHf. inversion Hall; assumption. }
  destruct Hds as (ds & Hds & Hback).
  destruct (clone_fields_ok _ _ _ ds IH fs h h1 fs1 Hwf Hds Ef) as ([new En] & W1 & C1 & T1 & Fr1 & Rd1).
  assert (Nm : map fst fs1 = map fst fs).
  { clear -Rd1. induction Rd1 as [|a b l l' [E _] _ IHr]; cbn; [reflexivity|rewrite E, IHr; reflexivity]. }
  assert (N : nth_error (h1 ++ [(k, fs1)]) (length h1) = Some (k, fs1)).
  { rewrite nth_error_app2, Nat.sub_diag by lia. reflexivity. }
  assert (Lh : length h <= length h1) by (rewrite En, app_length; lia).
  constructor.
  - exists (new ++ [(k, fs1)]). rewrite En, app_assoc. reflexivity.
  - apply Forall_app. split.
    + eapply Forall_impl; [|exact W1]. intros c; apply cell_ok_app.
    + constructor; [|constructor]. apply cell_ok_app. apply Hback; assumption.
  - intros m k0 fs0 L Em. rewrite fresh_refs_all.
    destruct (Nat.eq_dec m (length h1)) as [->|Ne].
    + rewrite N in Em. injection Em as <- <-.
      eapply Forall_impl; [|exact Fr1]. intros fv Hfv; apply fresh_ref_app; exact Hfv.
    + assert (Lt : m < length h1).
      { assert (m < length (h1 ++ [(k, fs1)])) by (apply nth_error_Some; congruence).
        rewrite app_length in H; cbn in H; lia. }
      rewrite nth_error_app1 in Em by exact Lt.
      pose proof (C1 m k0 fs0 L Em) as F. rewrite fresh_refs_all in F.
      eapply Forall_impl; [|exact F]. intros fv Hfv; apply fresh_ref_app; exact Hfv.
  - exists fs1. exact N.
  - intros m Em. injection Em as <-. left; exact Lh.
  - intros _ p Hp. destruct p as [|f p].
    + cbn [read]. rewrite N, El, Nm.
      replace (match fs1 with [] => true | _ :: _ => false end)
        with (match fs with [] => true | _ :: _ => false end); [reflexivity|].
      destruct fs, fs1; cbn in Nm; congruence.
    + cbn [read faithful_path] in *. rewrite N. rewrite El in *.
      apply andb_prop in Hp. destruct Hp as [Hl Hp]. apply negb_true_iff in Hl.
      pose proof (lookup_rel (fun f v v' => lossy k fs f = false -> forall p, faithful_path h v p = true ->
          read h1 v' p = read h v p) fs fs1 f Rd1) as LR. cbn beta in LR.
      destruct (lookup f fs) as [v|] eqn:L1, (lookup f fs1) as [v'|] eqn:L2; try contradiction; [|reflexivity].
      rewrite <- (LR Hl p Hp).
      assert (exists t, typed h1 t v') as [t Tv].
      { apply lookup_In in L2. clear -T1 L2. induction T1 as [|d fv ds fs [E1 E2] _ IHt]; [destruct L2|].
        destruct L2 as [->|L2]; [exists (snd d); exact E2|auto]. }
      apply (read_app h1 _ W1 p t v' Tv).
Qed.

(** Mutations through an object none of whose own parts belong to [other] leave [other] alone. *)
Definition apart (other : loc -> Prop) (h : heap) : Prop :=
  (forall m, other m -> m < length h) /\
  (forall m k fs, ~ other m -> nth_error h m = Some (k, fs) -> stores_ok other h fs).

Definition same_kinds (h h' : heap) : Prop :=
  forall m k fs, nth_error h m = Some (k, fs) -> exists fs', nth_error h' m = Some (k, fs').
Lemma stores_ok_kinds other h h' fs : same_kinds h h' -> stores_ok other h fs -> stores_ok other h' fs.
Proof.
  intros S H f m Hin. destruct (H f m Hin) as [|(k & fs' & E & O)]; [auto|].
  destruct (S _ _ _ E) as [fs2 E2]. right; exists k, fs2; auto.
Qed.
Lemma replace_length h m c : m < length h -> length (replace h m c) = length h.
Proof.
  intro L. unfold replace. rewrite app_length, firstn_length. cbn [length]. rewrite skipn_length. lia.
Qed.
Lemma replace_nth h m c i : m < length h ->
  nth_error (replace h m c) i = if Nat.eqb i m then Some c else nth_error h i.
Proof.
  intro L. unfold replace. destruct (Nat.eqb_spec i m) as [->|Ne].
  - rewrite nth_error_app2; rewrite firstn_length_le by lia; [|lia]. rewrite Nat.sub_diag. reflexivity.
  - destruct (Nat.lt_ge_cases i m) as [Lt|Ge].
    + rewrite nth_error_app1 by (rewrite firstn_length_le; lia).
      rewrite <- (firstn_skipn m h) at 2. rewrite nth_error_app1 by (rewrite firstn_length_le; lia). reflexivity.
    + rewrite nth_error_app2; rewrite firstn_length_le by lia; [|lia].
      destruct (i - m) as [|j] eqn:Ej; [lia|]. cbn.
      rewrite <- (firstn_skipn (S m) h) at 2.
      rewrite nth_error_app2; rewrite firstn_length_le by lia; [|lia]. f_equal. lia.
Qed.

Lemma reach_apart other h root m :
  apart other h -> ~ other root -> reach h root m -> ~ other m.
Proof.
  intros [_ A] Hr. induction 1 as [|m k fs f m' k' fs' _ IH E Hin E' O]; [exact Hr|].
  destruct (A m k fs IH E f m' Hin) as [N|(k2 & fs2 & E2 & O2)]; [exact N|].
  rewrite E' in E2. injection E2 as <- <-. congruence.
Qed.

Lemma mutate_apart other root h h' :
  apart other h -> ~ other root -> mutate other root h h' ->
  forall m, other m -> nth_error h' m = nth_error h m.
Proof.
  intros A Hr M. revert A. induction M as [h|h k fs h' S M IH|h m k fs fs' h' Rm E S M IH]; intros A x Hx.
  - reflexivity.
  - destruct A as [A1 A2]. rewrite IH; [apply nth_error_app1; apply A1; exact Hx| |exact Hx].
    assert (SK : same_kinds h (h ++ [(k, fs)])).
    { intros i k0 fs0 Ei. exists fs0. apply nth_app; exact Ei. }
    split.
    + intros i Hi. rewrite app_length. specialize (A1 i Hi). lia.
    + intros i k0 fs0 Ni Ei. destruct (Nat.lt_ge_cases i (length h)) as [Lt|Ge].
      * rewrite nth_error_app1 in Ei by exact Lt. eapply stores_ok_kinds; [exact SK|exact (A2 i k0 fs0 Ni Ei)].
      * rewrite nth_error_app2 in Ei by exact Ge. destruct (i - length h) as [|j]; cbn in Ei; [|destruct j; discriminate Ei].
        injection Ei as <- <-. eapply stores_ok_kinds; [exact SK|exact S].
  - assert (Lm : m < length h) by (apply nth_error_Some; congruence).
    pose proof (reach_apart _ _ _ _ A Hr Rm) as Nm. destruct A as [A1 A2].
    rewrite IH; [|clear IH|exact Hx].
    + rewrite replace_nth by exact Lm. destruct (Nat.eqb_spec x m); [subst; contradiction|reflexivity].
    + assert (SK : same_kinds h (replace h m (k, fs'))).
      { intros i k0 fs0 Ei. rewrite replace_nth by exact Lm. destruct (Nat.eqb_spec i m) as [->|].
        - rewrite E in Ei. injection Ei as <- <-. exists fs'; reflexivity.
        - exists fs0; exact Ei. }
      split.
      * intros i Hi. rewrite replace_length by exact Lm. apply A1; exact Hi.
      * intros i k0 fs0 Ni Ei. rewrite replace_nth in Ei by exact Lm.
        destruct (Nat.eqb_spec i m) as [->|].
        -- injection Ei as <- <-. eapply stores_ok_kinds; [exact SK|exact S].
        -- eapply stores_ok_kinds; [exact SK|exact (A2 i k0 fs0 Ni Ei)].
Qed.

(* ------------------------------------------------------------------------------------------- *)
(** * C39 *)

(** A clone reads the same as the original along every path, of any length, that does not go
    through a documented exception. *)
Theorem C39_clone_is_complete : forall fuel h l h' l' path,
  wf h -> clone fuel h l = Ok (h', l') -> faithful_path h (Ptr l) path = true ->
  read h' (Ptr l') path = read h (Ptr l) path.
Proof.
  intros fuel h l h' l' path Hwf E Hp.
  destruct (nth_error h l) as [[k fs]|] eqn:El.
  - apply (cp_read _ _ _ _ _ _ (clone_ok fuel h l k fs h' l' Hwf El E)); [reflexivity|exact Hp].
  - destruct fuel; cbn in E; [discriminate E|]. rewrite El in E. discriminate E.
Qed.

Lemma clone_cell fuel h l h' l' : clone fuel h l = Ok (h', l') -> exists k fs, nth_error h l = Some (k, fs).
Proof.
  destruct fuel; cbn; [discriminate|]. destruct (nth_error h l) as [[k fs]|]; [eauto|discriminate].
Qed.

Lemma clone_fields_len rec rl : (forall h l h' l', rec h l = Ok (h', l') -> length h <= length h') ->
  forall fs h h' fs', clone_fields rec rl h fs = Ok (h', fs') -> length h <= length h'.
Proof.
  intros R. induction fs as [|[f v] fs IH]; intros h h' fs' E; cbn in E.
  - injection E as <- <-. lia.
  - destruct (clone_value rec (rl f) h v) as [[h1 v1]| |] eqn:Ev; try discriminate E.
    destruct (clone_fields rec rl h1 fs) as [[h2 r2]| |] eqn:Er; try discriminate E.
    injection E as <- <-. apply IH in Er.
    assert (length h <= length h1); [|lia].
    unfold clone_value, clone_ref in Ev.
    destruct (rl f) as [[| | |]|], v; try discriminate Ev; try (injection Ev as <- <-; rewrite ?app_length; lia);
      destruct (rec h l) as [[h3 l3]| |] eqn:Er3; try discriminate Ev; injection Ev as <- <-; eapply R; exact Er3.
Qed.
Lemma clone_len : forall fuel h l h' l', clone fuel h l = Ok (h', l') -> length h <= l' < length h'.
Proof.
  induction fuel as [|n IH]; intros h l h' l' E; cbn in E; [discriminate E|].
  destruct (nth_error h l) as [[k fs]|]; [|discriminate E].
  destruct (clone_fields (clone n) (rule_for k fs) h fs) as [[h1 fs1]| |] eqn:Ef; try discriminate E.
  injection E as <- <-. apply clone_fields_len in Ef; [rewrite app_length; cbn; lia|].
  intros h0 l0 h2 l2 E0. specialize (IH _ _ _ _ E0). lia.
Qed.
Lemma nth_error_ext_prefix : forall (h h2 : heap),
  (forall m, m < length h -> nth_error h2 m = nth_error h m) -> firstn (length h) h2 = h.
Proof.
  induction h as [|c h IH]; intros h2 H; cbn; [reflexivity|].
  destruct h2 as [|c2 h2]; [specialize (H 0 ltac:(cbn; lia)); discriminate H|].
  pose proof (H 0 ltac:(cbn; lia)) as E. cbn in E. injection E as ->. f_equal. apply IH.
  intros m L. apply (H (S m)). cbn; lia.
Qed.

(** Cloning changes no existing object, and the result is a well-typed heap. *)
Theorem C39_clone_changes_nothing : forall fuel h l h' l',
  wf h -> clone fuel h l = Ok (h', l') ->
  wf h' /\ length h <= l' /\ (forall m, m < length h -> nth_error h' m = nth_error h m).
Proof.
  intros fuel h l h' l' Hwf E. destruct (clone_cell _ _ _ _ _ E) as (k & fs & El).
  destruct (clone_ok fuel h l k fs h' l' Hwf El E) as [[new En] W _ _ F _].
  split; [exact W|]. split; [apply (clone_len _ _ _ _ _ E)|].
  intros m L. rewrite En. apply nth_error_app1; exact L.
Qed.

(** Whatever is done through the clone afterwards - assigning fields, inserting and deleting map
    entries, replacing list elements, at any depth and any number of times - every object that
    existed before, in particular the original with everything below it, is unchanged. *)
Theorem C39_changing_the_clone_leaves_the_original : forall fuel h l h' l' h2,
  wf h -> clone fuel h l = Ok (h', l') ->
  mutate (fun m => m < length h) l' h' h2 ->
  forall m, m < length h -> nth_error h2 m = nth_error h m.
Proof.
  intros fuel h l h' l' h2 Hwf E M m L. destruct (clone_cell _ _ _ _ _ E) as (k & fs & El).
  destruct (C39_clone_changes_nothing _ _ _ _ _ Hwf E) as (_ & Ll & Same).
  destruct (clone_ok fuel h l k fs h' l' Hwf El E) as [[new En] W C _ F _].
  rewrite <- (Same m L). refine (mutate_apart _ _ _ _ _ _ M m L); [|lia].
  split.
  - intros i Hi. rewrite En, app_length. lia.
  - intros i k0 fs0 Ni Ei. apply (C i k0 fs0); [lia|exact Ei].
Qed.

(** The original reads the same as before along every path. *)
Theorem C39_original_reads_the_same : forall fuel h l h' l' h2 path,
  wf h -> clone fuel h l = Ok (h', l') ->
  mutate (fun m => m < length h) l' h' h2 ->
  read h2 (Ptr l) path = read h (Ptr l) path.
Proof.
  intros fuel h l h' l' h2 path Hwf E M.
  pose proof (C39_changing_the_clone_leaves_the_original _ _ _ _ _ _ Hwf E M) as U.
  destruct (clone_cell _ _ _ _ _ E) as (k & fs & El).
  assert (X : h2 = h ++ skipn (length h) h2).
  { rewrite <- (firstn_skipn (length h) h2) at 1. f_equal.
    apply nth_error_ext_prefix. exact U. }
  rewrite X. apply (read_app h _ Hwf path (TRef k)). exists fs. exact El.
Qed.

(** And changes made through the original afterwards leave every cell the clone allocated as it was. *)
Theorem C39_changing_the_original_leaves_the_clone : forall fuel h l h' l' h2,
  wf h -> clone fuel h l = Ok (h', l') ->
  mutate (fun m => length h <= m < length h') l h' h2 ->
  forall m, length h <= m < length h' -> nth_error h2 m = nth_error h' m.
Proof.
  intros fuel h l h' l' h2 Hwf E M m L. destruct (clone_cell _ _ _ _ _ E) as (k & fs & El).
  destruct (C39_clone_changes_nothing _ _ _ _ _ Hwf E) as (W & Ll & Same).
  assert (Lh : l < length h) by (apply nth_error_Some; congruence).
  refine (mutate_apart _ _ _ _ _ _ M m L); [|lia].
  split; [intros i Hi; lia|].
  intros i k0 fs0 Ni Ei f x Hin. left.
  assert (Li : i < length h) by (assert (i < length h') by (apply nth_error_Some; congruence); lia).
  rewrite (Same i Li) in Ei.
  destruct (cell_typed h k0 fs0 f (Ptr x) (wf_nth _ _ _ _ Hwf Ei) Hin) as [[|k2] Ht]; [destruct Ht|].
  destruct Ht as [fs2 Ex]. assert (x < length h) by (apply nth_error_Some; congruence). lia.
Qed.

(** Cloning returns: for an object of nesting depth at most [n] in which no list element and no
    each-task is nil and every permission has a role or a user. *)
Fixpoint clonable (n : nat) (h : heap) (l : loc) : Prop :=
  match n with
  | O => False
  | S n =>
      exists k fs, nth_error h l = Some (k, fs) /\
        (k = KPermission -> lookup "Role" fs <> Some Nil \/ lookup "User" fs <> Some Nil) /\
        forall f v, In (f, v) fs ->
          match v with
          | Ptr m => (exists k' fs', nth_error h m = Some (k', fs') /\ own_kind k' = false) \/ clonable n h m
          | Nil => is_slice k = false /\ (k = KEach -> f <> "Task")
          | Scal _ => True
          end
  end.

Lemma clonable_app new : forall n h l, clonable n h l -> clonable n (h ++ new) l.
Proof.
  induction n as [|n IH]; intros h l H; [exact H|]. cbn [clonable] in *.
  destruct H as (k & fs & E & P & H). exists k, fs. split; [apply nth_app; exact E|]. split; [exact P|].
  intros f v Hin. specialize (H f v Hin). destruct v; auto.
  destruct H as [(k' & fs' & E' & O)|H]; [left; exists k', fs'; split; [apply nth_app; exact E'|exact O]|right; apply IH; exact H].
Qed.

Lemma must_nonnil h k fs f v :
  cell_ok h (k, fs) -> NoDup (map fst fs) -> In (f, v) fs -> rule_for k fs f = Some Must ->
  (k = KPermission -> lookup "Role" fs <> Some Nil \/ lookup "User" fs <> Some Nil) ->
  (v = Nil -> is_slice k = false /\ (k = KEach -> f <> "Task")) -> v <> Nil.
Proof.
  intros C ND Hin Hr P Hn ->. destruct (Hn eq_refl) as [S Hf].
  destruct k; cbn in S; try discriminate S; cbn [rule_for] in Hr; try discriminate Hr;
    try (solve [apply lookup_In in Hr; cbn in Hr; repeat (destruct Hr as [Hr|Hr]; [discriminate Hr|]); destruct Hr]).
  - (* each *)
    apply lookup_In in Hr; cbn in Hr.
    repeat (destruct Hr as [Hr|Hr]; [first [discriminate Hr|injection Hr as <-; apply (Hf eq_refl); reflexivity]|]).
    destruct Hr.
  - (* permission *)
    specialize (P eq_refl). pose proof (In_lookup_nodup _ _ _ ND Hin) as Lk.
    destruct (lookup "Role" fs) as [[s| |m]|] eqn:LR; cbn in Hr.
    + apply lookup_In in LR. unfold cell_ok in C; cbn in C.
      inversion C as [|? ? ? ? [E1 T1] C1]; subst. inversion C1 as [|? ? ? ? [E2 T2] C2]; subst. inversion C2; subst.
      destruct y as [f1 v1], y0 as [f2 v2]; cbn in *; subst. destruct LR as [LR|[LR|[]]]; inversion LR; subst. destruct T1.
    + destruct (String.eqb_spec f "User"); [subst|discriminate Hr]. destruct P as [P|P]; [apply P; reflexivity|]. apply P; exact Lk.
    + destruct (String.eqb_spec f "Role"); [subst|discriminate Hr]. congruence.
    + exfalso. unfold cell_ok in C; cbn in C.
      inversion C as [|? ? ? ? [E1 T1] C1]; subst. destruct y as [f1 v1]; cbn in *; subst. discriminate LR.
Qed.

Lemma cell_nodup h k fs : cell_ok h (k, fs) -> NoDup (map fst fs).
Proof.
  unfold cell_ok; cbn. destruct (decl k) as [ds|t] eqn:D; [|intros [H _]; exact H].
  intro CO. replace (map fst fs) with (map fst ds); [eapply decl_nodup; exact D|].
  clear -CO. induction CO as [|d fv ds fs [E _] _ IH]; cbn; [reflexivity|rewrite E, IH; reflexivity].
Qed.
Lemma cell_fits h k fs f v : cell_ok h (k, fs) -> In (f, v) fs ->
  exists t, typed h t v /\ fits (rule_for k fs f) (lossy k fs f) t v.
Proof.
  intros C Hin. pose proof (cell_nodup _ _ _ C) as ND. pose proof (In_lookup_nodup _ _ _ ND Hin) as Lk.
  unfold cell_ok in C; cbn in C. destruct (decl k) as [ds|t] eqn:D.
  - assert (exists t, In (f, t) ds /\ typed h t v) as (t & It & Tt).
    { clear -C Hin. induction C as [|[g t] [g' w] ds fs [E Ht] _ IH]; [destruct Hin|]. cbn in E, Ht. subst g'.
      destruct Hin as [Eq|Hin]; [injection Eq as -> ->; exists t; split; [left; reflexivity|exact Ht]|].
      destruct (IH Hin) as (t2 & I2 & T2). exists t2; split; [right; exact I2|exact T2]. }
    exists t. split; [exact Tt|]. eapply struct_fits; eassumption.
  - destruct C as [_ C]. rewrite Forall_forall in C. exists t. split; [apply (C _ Hin)|].
    eapply elem_fits; [exact D|apply (C _ Hin)].
Qed.

Theorem C39_clone_returns : forall n h l, wf h -> clonable n h l ->
  exists h' l', clone n h l = Ok (h', l').
Proof.
  induction n as [|n IH]; intros h l Hwf Hc; [destruct Hc|].
  cbn [clonable] in Hc. destruct Hc as (k & fs & El & P & Hc). cbn [clone]. rewrite El.
  pose proof (wf_nth _ _ _ _ Hwf El) as C. pose proof (cell_nodup _ _ _ C) as ND.
  assert (G : forall fs0 new, (forall fv, In fv fs0 -> In fv fs) -> wf (h ++ new) ->
            exists h1 fs1, clone_fields (clone n) (rule_for k fs) (h ++ new) fs0 = Ok (h1, fs1)).
  { induction fs0 as [|[f v] fs0 IHf]; intros new I W; [exists (h ++ new), []; reflexivity|].
    pose proof (I (f, v) (or_introl eq_refl)) as Hin.
    destruct (cell_fits h k fs f v C Hin) as (t & Tt & Ft).
    assert (V : exists h1 v1, clone_value (clone n) (rule_for k fs f) (h ++ new) v = Ok (h1, v1)).
    { assert (RefOk : forall m k', v = Ptr m -> t = TRef k' -> own_kind k' = true ->
                exists h1 v1, clone_ref (clone n) (h ++ new) m = Ok (h1, v1)).
      { intros m k' -> -> O. specialize (Hc f (Ptr m) Hin). cbn in Hc. destruct Tt as [fs2 E2].
        destruct Hc as [(k3 & fs3 & E3 & O3)|Hc]; [rewrite E2 in E3; injection E3 as <- <-; congruence|].
        destruct (IH (h ++ new) m W (clonable_app new n h m Hc)) as (h1 & l1 & E1).
        unfold clone_ref. rewrite E1. eauto. }
      destruct Ft as [[_ ->]|[[-> _]|[[-> _]|(k' & Ek & O & [[Er S]|[Er|[Er S]]])]]]; cbn; eauto.
      - rewrite Er. destruct v; cbn; eauto.
      - rewrite Er. assert (Nv : v <> Nil).
        { eapply (must_nonnil h k fs f v); [exact C|exact ND|exact Hin|exact Er|exact P|]. intro Ev0. rewrite Ev0 in Hin. exact (Hc f Nil Hin). }
        subst t. destruct v as [s| |m]; [destruct Tt|congruence|]. cbn. eauto.
      - rewrite Er. destruct v; cbn; eauto. }
    destruct V as (h1 & v1 & Ev). cbn [clone_fields]. rewrite Ev.
    assert (RO : rec_ok (clone n)) by apply clone_ok.
    destruct (clone_value_ok _ _ _ _ _ _ _ _ RO W (typed_app h new t v Tt) Ft Ev) as [[new1 E1] W1 _ _ _ _].
    rewrite <- app_assoc in E1. subst h1.
    destruct (IHf (new ++ new1) (fun fv H => I fv (or_intror H)) W1) as (h2 & r2 & E2).
    rewrite E2. eauto. }
  destruct (G fs [] (fun fv H => H)) as (h1 & fs1 & E1); [rewrite app_nil_r; exact Hwf|].
  rewrite app_nil_r in E1. rewrite E1. eauto.
Qed.
Print Assumptions C39_clone_is_complete.
Print Assumptions C39_clone_changes_nothing.
Print Assumptions C39_changing_the_clone_leaves_the_original.
Print Assumptions C39_original_reads_the_same.
Print Assumptions C39_changing_the_original_leaves_the_clone.
Print Assumptions C39_clone_returns.
