(** C40 and C50: what a submitted job must satisfy to be accepted.  input/job.go, input/task.go, input/validate.go.

    The traversal is that of go-playground/validator v10.26 (go.mod): fields of struct type and non-nil pointers to
    structs are entered whether they are tagged or not; slices are entered only when tagged "dive"; "required" on a slice
    asks for a non-nil slice, on a number or a string for a non-zero value. *)
From Coq Require Import Ascii.
From Verif Require Import Types World Eval Handlers System SpecState SpecSeq PropsSched Sim.
Open Scope string_scope.
Open Scope list_scope.
Open Scope Z_scope.

(* ------------------------------------------------------------------ *)
(** * Input types *)
(** input/task.go:89-99 (AuxTask) and 101-113 (SidecarTask, [a_probe]) *)
Record iaux := mkIAux {
  ia_name : string; ia_description : string; ia_cmd : list string; ia_entrypoint : list string; ia_run : string;
  ia_image : string; ia_registry : option registry; ia_env : smap; ia_files : smap; ia_timeout : string;
  ia_probe : option probe }.
(** input/task.go:82-87 *)
Record imount := mkIMount { im_type : string; im_source : string; im_target : string; im_opts : smap }.
(** input/task.go:50-66,38-48: over the type of tasks.  The list of tasks of a sub-job is nil ([None]) or not. *)
Record iparT (T : Type) := mkIPar { ip_tasks : list T }.
Record ieachT (T : Type) := mkIEach { ie_var : string; ie_list : string; ie_task : T; ie_concurrency : Z }.
Record isubT (T : Type) := mkISub {
  is_id : string; is_name : string; is_description : string; is_tasks : option (list T); is_inputs : smap;
  is_secrets : smap; is_autodelete : option autodelete; is_output : string; is_detached : bool;
  is_webhooks : list webhook }.
Arguments mkIPar {T}. Arguments ip_tasks {T}.
Arguments mkIEach {T}. Arguments ie_var {T}. Arguments ie_list {T}. Arguments ie_task {T}. Arguments ie_concurrency {T}.
Arguments mkISub {T}. Arguments is_id {T}. Arguments is_name {T}. Arguments is_description {T}. Arguments is_tasks {T}.
Arguments is_inputs {T}. Arguments is_secrets {T}. Arguments is_autodelete {T}. Arguments is_output {T}.
Arguments is_detached {T}. Arguments is_webhooks {T}.

(** input/task.go:8-36 ([i_retry]: the limit, lines 62-64) *)
Inductive itask := mkITask {
  i_name : string; i_description : string; i_cmd : list string; i_entrypoint : list string; i_run : string;
  i_image : string; i_registry : option registry; i_env : smap; i_files : smap; i_queue : string;
  i_pre : list iaux; i_post : list iaux; i_sidecars : list iaux; i_mounts : list imount; i_networks : list string;
  i_retry : option Z; i_limits : option limits; i_timeout : string; i_var : string; i_if : string;
  i_parallel : option (iparT itask); i_each : option (ieachT itask); i_subjob : option (isubT itask);
  i_gpus : string; i_tags : list string; i_workdir : string; i_priority : Z }.

(** input/job.go:46-52, 66-69, 10-25 ([ij_wait]: the time limit) *)
Record idefaults := mkIDefaults {
  id_retry : option Z; id_limits : option limits; id_timeout : string; id_queue : string; id_priority : Z }.
Record iperm := mkIPerm { ip_user : string; ip_role : string }.
Record ijob := mkIJob {
  ij_name : string; ij_description : string; ij_tags : list string; ij_tasks : list itask; ij_inputs : smap;
  ij_secrets : smap; ij_output : string; ij_defaults : option idefaults; ij_webhooks : list webhook;
  ij_permissions : list iperm; ij_autodelete : option autodelete; ij_wait : option string }.

(* ------------------------------------------------------------------ *)
(** * Conversion *)
(** input/task.go:115-122 *)
Definition to_mount (m : imount) : mount := mkMount "" (im_type m) (im_source m) (im_target m) (im_opts m).
(** input/task.go:124-178: every other field is the zero value; the zero state is "" in Go and does not matter here
    because every state is assigned before a task is stored (CREATED stands for it). *)
Definition to_aux (a : iaux) : task :=
  mkTask noid noid noid 0 (ia_name a) (ia_description a) TCreated None None None None None (ia_cmd a) (ia_entrypoint a)
    (ia_run a) (ia_image a) (ia_registry a) (ia_env a) (ia_files a) "" 0 "" [] [] [] [] [] noid None None (ia_timeout a)
    "" "" "" None None None "" [] "" 0 0 (ia_probe a).
(** input/task.go:180-268,309-313 *)
Fixpoint to_task (i : itask) : task :=
  mkTask noid noid noid 0 (i_name i) (i_description i) TCreated None None None None None (i_cmd i) (i_entrypoint i)
    (i_run i) (i_image i) (i_registry i) (i_env i) (i_files i) (i_queue i) 0 "" (map to_aux (i_pre i))
    (map to_aux (i_post i)) (map to_aux (i_sidecars i)) (map to_mount (i_mounts i)) (i_networks i) noid
    (match i_retry i with Some n => Some (mkRetry n 0) | None => None end) (i_limits i) (i_timeout i) "" (i_var i) (i_if i)
    (match i_parallel i with Some p => Some (mkParallel (map to_task (ip_tasks p)) 0) | None => None end)
    (match i_each i with Some e => Some (mkEach (ie_var e) (ie_list e) (to_task (ie_task e)) 0 0 (ie_concurrency e) 0) | None => None end)
    (match i_subjob i with
     | Some s => Some (mkSubJob noid (is_name s) (is_description s)
                         (match is_tasks s with Some l => map to_task l | None => [] end) (is_inputs s) (is_secrets s)
                         (is_autodelete s) (is_output s) (is_detached s) (is_webhooks s))
     | None => None end)
    (i_gpus i) (i_tags i) (i_workdir i) (i_priority i) 0 None.
(** input/job.go:198-210 *)
Definition to_defaults (d : idefaults) : jobdefaults :=
  mkDefaults (match id_retry d with Some n => Some (mkRetry n 0) | None => None end) (id_limits d) (id_timeout d)
    (id_queue d) (id_priority d).
(** input/job.go:221-233 *)
Definition to_perm (p : iperm) : permission :=
  if String.eqb (ip_role p) "" then mkPermission None (Some (mkUser noid "" (ip_user p) "" "" None false))
  else mkPermission (Some (mkRole noid (ip_role p) "" None)) None.
(** input/job.go:85-144: the definition that [new_job] (Handlers.v) turns into the stored job *)
Definition to_def (cj : smap) (by_ : option user) (j : ijob) : job :=
  mkJob noid noid (ij_name j) (ij_description j) (ij_tags j) JPending 0 by_ None None None (map to_task (ij_tasks j)) [] 0
    (ij_inputs j) (mkCtx cj (ij_inputs j) (ij_secrets j) []) (Z.of_nat (length (ij_tasks j))) (ij_output j) "" ""
    (match ij_defaults j with Some d => Some (to_defaults d) | None => None end) (ij_webhooks j)
    (map to_perm (ij_permissions j)) (ij_autodelete j) None (ij_secrets j) 0 None.

(* ------------------------------------------------------------------ *)
(** * Validation *)
Definition isempty (s : string) : bool := match s with EmptyString => true | _ => false end.
Definition empty {A} (l : list A) : bool := match l with [] => true | _ => false end.
Definition unset {A} (o : option A) : bool := match o with None => true | Some _ => false end.

(** the characters of `^[-/\.0-9a-zA-Z_/= ]+$` (validate.go:17) *)
Definition between (a b : ascii) (c : ascii) : bool := ((nat_of_ascii a <=? nat_of_ascii c) && (nat_of_ascii c <=? nat_of_ascii b))%nat.
Definition mount_char (c : ascii) : bool :=
  existsb (Ascii.eqb c) ["-"; "/"; "."; "_"; "="; " "]%char || between "0" "9" c || between "a" "z" c || between "A" "Z" c.
Fixpoint all_chars (f : ascii -> bool) (s : string) : bool :=
  match s with EmptyString => true | String c r => f c && all_chars f r end.
Definition mount_pattern (s : string) : bool := negb (isempty s) && all_chars mount_char s.

Section Validation.
(** time.ParseDuration succeeds; eval.ValidExpr; the length of a string in characters (utf8.RuneCountInString); the
    datastore knows the user, the role *)
Variables (duration_parses expr_compiles : string -> bool) (runes : string -> nat) (user_exists role_exists : string -> bool).

(** validate.go:54-60, 109-116 *)
Definition validate_expr (s : string) : bool := isempty s || expr_compiles s.
Definition validate_duration (s : string) : bool := isempty s || duration_parses s.
(** validate.go:118-131 *)
Definition validate_queue (s : string) : bool :=
  isempty s || (negb (String.prefix QUEUE_EXCLUSIVE_PREFIX s) && negb (is_coordinator_queue s)).
(** validate.go:62-79 *)
Definition validate_mount (m : imount) : bool :=
  if isempty (im_type m) then false
  else if String.eqb (im_type m) "volume" && negb (isempty (im_source m)) then false
  else if String.eqb (im_type m) "volume" && isempty (im_target m) then false
  else if String.eqb (im_type m) "bind" && isempty (im_source m) then false
  else if negb (isempty (im_source m)) && negb (mount_pattern (im_source m)) then false
  else if negb (isempty (im_target m)) && negb (mount_pattern (im_target m)) then false
  else if String.eqb (im_target m) "/tork" then false else true.
(** validate.go:87-107: any reported error refuses the job *)
Definition validate_perm (p : iperm) : bool :=
  negb (isempty (ip_role p) && isempty (ip_user p)) && negb (negb (isempty (ip_role p)) && negb (isempty (ip_user p))) &&
  (isempty (ip_user p) || user_exists (ip_user p)) && (isempty (ip_role p) || role_exists (ip_role p)).
(** job.go:58-64, 54-56 *)
Definition validate_webhook (w : webhook) : bool := negb (isempty (wh_url w)) && validate_expr (wh_if w).
Definition validate_autodelete (a : option autodelete) : bool :=
  match a with Some a => validate_duration (ad_after a) | None => true end.
(** task.go:62-64 *)
Definition validate_retry (r : option Z) : bool :=
  match r with Some n => negb (n =? 0) && (1 <=? n) && (n <=? 10) | None => true end.
(** task.go:89-119 *)
Definition validate_probe (p : option probe) : bool :=
  match p with
  | Some p => negb (isempty (pb_path p)) && (runes (pb_path p) <=? 256)%nat && negb (pb_port p =? 0) && (1 <=? pb_port p) &&
              (pb_port p <=? 65535) && validate_duration (pb_timeout p)
  | None => true end.
Definition validate_aux (a : iaux) : bool := negb (isempty (ia_name a)) && validate_probe (ia_probe a).
(** validate.go:138-156 *)
Definition task_type_validation (t : itask) : bool :=
  negb (negb (unset (i_parallel t)) && negb (unset (i_each t))) &&
  negb (negb (unset (i_parallel t)) && negb (unset (i_subjob t))) &&
  negb (negb (unset (i_each t)) && negb (unset (i_subjob t))).
(** validate.go:158-199 *)
Definition composite_task_validation (t : itask) : bool :=
  if unset (i_parallel t) && unset (i_each t) && unset (i_subjob t) then true
  else isempty (i_image t) && empty (i_cmd t) && empty (i_entrypoint t) && isempty (i_run t) && empty (i_env t) &&
       isempty (i_queue t) && empty (i_pre t) && empty (i_post t) && empty (i_mounts t) && unset (i_retry t) &&
       unset (i_limits t) && isempty (i_timeout t).
(** task.go:8-66 with the traversal described at the top; SubJob.Tasks is not tagged "dive" *)
Fixpoint validate_task (t : itask) : bool :=
  negb (isempty (i_name t)) && validate_queue (i_queue t) && forallb validate_aux (i_pre t) &&
  forallb validate_aux (i_post t) && forallb validate_aux (i_sidecars t) && forallb validate_mount (i_mounts t) &&
  validate_retry (i_retry t) && validate_duration (i_timeout t) && (runes (i_var t) <=? 64)%nat && validate_expr (i_if t) &&
  match i_parallel t with
  | Some p => negb (empty (ip_tasks p)) && forallb validate_task (ip_tasks p)
  | None => true end &&
  match i_each t with
  | Some e => negb (isempty (ie_list e)) && validate_expr (ie_list e) && validate_task (ie_task e) &&
              (0 <=? ie_concurrency e) && (ie_concurrency e <=? 99999)
  | None => true end &&
  match i_subjob t with
  | Some s => negb (isempty (is_name s)) && negb (unset (is_tasks s)) && validate_autodelete (is_autodelete s) &&
              forallb validate_webhook (is_webhooks s)
  | None => true end &&
  (runes (i_workdir t) <=? 256)%nat && (0 <=? i_priority t) && (i_priority t <=? 9) &&
  task_type_validation t && composite_task_validation t.
(** job.go:46-52 *)
Definition validate_defaults (d : option idefaults) : bool :=
  match d with
  | Some d => validate_retry (id_retry d) && validate_duration (id_timeout d) && validate_queue (id_queue d) &&
              (0 <=? id_priority d) && (id_priority d <=? 9)
  | None => true end.
(** job.go:10-25, 27-29; validate.go:20-35 *)
Definition validate (j : ijob) : bool :=
  negb (isempty (ij_name j)) && negb (empty (ij_tasks j)) && forallb validate_task (ij_tasks j) &&
  validate_expr (ij_output j) && validate_defaults (ij_defaults j) && forallb validate_webhook (ij_webhooks j) &&
  forallb validate_perm (ij_permissions j) && validate_autodelete (ij_autodelete j) &&
  match ij_wait j with Some s => validate_duration s && negb (isempty s) | None => true end.

(* ------------------------------------------------------------------ *)
(** * Specification *)
(** ** The parts of a task that are themselves tasks: validated ones ([part]) and all of them ([any_part]) *)
Inductive part : task -> task -> Prop :=
| part_self t : part t t
| part_parallel u c p t : t_parallel t = Some p -> In c (p_tasks p) -> part u c -> part u t
| part_each u e t : t_each t = Some e -> part u (e_task e) -> part u t.
Inductive any_part : task -> task -> Prop :=
| any_self t : any_part t t
| any_parallel u c p t : t_parallel t = Some p -> In c (p_tasks p) -> any_part u c -> any_part u t
| any_each u e t : t_each t = Some e -> any_part u (e_task e) -> any_part u t
| any_subjob u c s t : t_subjob t = Some s -> In c (s_tasks s) -> any_part u c -> any_part u t.

(** a queue a user may name: not one of the coordinator's, not private to a node; or none at all *)
Definition user_queue (q : string) : Prop :=
  ~ In q ["pending"; "started"; "completed"; "error"; "heartbeat"; "jobs"; "logs"; "progress"; "redeliveries"] /\
  (forall r, q <> ("x-" ++ r)%string).
Definition optional (P : string -> Prop) (s : string) : Prop := s = "" \/ P s.
Definition duration (s : string) : Prop := duration_parses s = true.
Definition expression (s : string) : Prop := expr_compiles s = true.
Definition path_of_mount (s : string) : Prop :=
  s <> "" /\ forall c, In c (list_ascii_of_string s) ->
    In c (list_ascii_of_string "-/._= 0123456789abcdefghijklmnopqrstuvwxyzABCDEFGHIJKLMNOPQRSTUVWXYZ").
Definition good_mount (m : mount) : Prop :=
  m_type m <> "" /\ (m_type m = "volume" -> m_source m = "" /\ m_target m <> "") /\ (m_type m = "bind" -> m_source m <> "") /\
  optional path_of_mount (m_source m) /\ optional path_of_mount (m_target m) /\ m_target m <> "/tork".
Definition good_retry (r : option retry) : Prop := match r with Some r => 1 <= r_limit r <= 10 /\ r_attempts r = 0 | None => True end.
Definition good_probe (p : option probe) : Prop :=
  match p with Some p => pb_path p <> "" /\ (runes (pb_path p) <= 256)%nat /\ 1 <= pb_port p <= 65535 /\ optional duration (pb_timeout p)
             | None => True end.
Definition good_aux (t : task) : Prop := t_name t <> "" /\ good_probe (t_probe t).
Definition good_webhook (w : webhook) : Prop := wh_url w <> "" /\ optional expression (wh_if w).
Definition good_autodelete (a : option autodelete) : Prop := match a with Some a => optional duration (ad_after a) | None => True end.
(** how a composite task may look *)
Definition no_execution (t : task) : Prop :=
  t_image t = "" /\ t_cmd t = [] /\ t_entrypoint t = [] /\ t_run t = "" /\ t_env t = [] /\ t_queue t = "" /\
  t_pre t = [] /\ t_post t = [] /\ t_mounts t = [] /\ t_retry t = None /\ t_limits t = None /\ t_timeout t = "".
Definition good_kind (t : task) : Prop :=
  regular t \/
  (no_execution t /\
   ((exists p, t_parallel t = Some p /\ p_tasks p <> [] /\ p_completions p = 0 /\ t_each t = None /\ t_subjob t = None) \/
    (exists e, t_each t = Some e /\ e_list e <> "" /\ expression (e_list e) /\ 0 <= e_concurrency e <= 99999 /\
               t_parallel t = None /\ t_subjob t = None) \/
    (exists s, t_subjob t = Some s /\ s_name s <> "" /\ good_autodelete (s_autodelete s) /\ Forall good_webhook (s_webhooks s) /\
               t_parallel t = None /\ t_each t = None))).
Definition good_task (t : task) : Prop :=
  t_name t <> "" /\ optional user_queue (t_queue t) /\ Forall good_aux (t_pre t) /\ Forall good_aux (t_post t) /\
  Forall good_aux (t_sidecars t) /\ Forall good_mount (t_mounts t) /\ good_retry (t_retry t) /\
  optional duration (t_timeout t) /\ (runes (t_var t) <= 64)%nat /\ optional expression (t_if t) /\
  (runes (t_workdir t) <= 256)%nat /\ 0 <= t_priority t <= 9 /\ good_kind t.
Definition good_permission (p : permission) : Prop :=
  (exists r, pm_role p = Some r /\ pm_user p = None /\ ro_slug r <> "" /\ role_exists (ro_slug r) = true) \/
  (exists u, pm_role p = None /\ pm_user p = Some u /\ u_username u <> "" /\ user_exists (u_username u) = true).
Definition good_defaults (d : option jobdefaults) : Prop :=
  match d with
  | Some d => good_retry (d_retry d) /\ optional duration (d_timeout d) /\ optional user_queue (d_queue d) /\ 0 <= d_priority d <= 9
  | None => True end.
Definition good_job (j : job) : Prop :=
  j_name j <> "" /\ j_tasks j <> [] /\ (forall t u, In t (j_tasks j) -> part u t -> good_task u) /\
  optional expression (j_output j) /\ good_defaults (j_defaults j) /\ Forall good_webhook (j_webhooks j) /\
  Forall good_permission (j_permissions j) /\ good_autodelete (j_autodelete j).

(* ------------------------------------------------------------------ *)
(** * Proofs *)
Lemma isempty_spec s : reflect (s = "") (isempty s).
Proof. destruct s; constructor; congruence. Qed.
Lemma empty_spec {A} (l : list A) : reflect (l = []) (empty l).
Proof. destruct l; constructor; congruence. Qed.
Lemma unset_spec {A} (o : option A) : reflect (o = None) (unset o).
Proof. destruct o; constructor; congruence. Qed.

Lemma prefix_spec p s : String.prefix p s = true <-> exists r, s = (p ++ r)%string.
Proof.
  revert s. induction p as [|a p IH]; intros s; cbn.
  - split; [intros _; now exists s|now destruct s].
  - destruct s as [|b s]; [split; [discriminate|intros (r & H); discriminate]|].
    assert (E : String.prefix (String a p) (String b s) = if ascii_dec a b then String.prefix p s else false) by reflexivity.
    rewrite E. clear E. destruct (ascii_dec a b) as [->|Hn].
    + rewrite IH. split; intros (r & E); exists r; congruence.
    + split; [discriminate|intros (r & E); congruence].
Qed.

Lemma validate_queue_spec q : validate_queue q = true <-> optional user_queue q.
Proof.
  unfold validate_queue, optional, user_queue. destruct (isempty_spec q) as [->|Hn]; cbn [orb]; [tauto|].
  rewrite andb_true_iff, !negb_true_iff.
  assert (E1 : String.prefix QUEUE_EXCLUSIVE_PREFIX q = false <-> forall r, q <> ("x-" ++ r)%string).
  { pose proof (prefix_spec QUEUE_EXCLUSIVE_PREFIX q) as H. change QUEUE_EXCLUSIVE_PREFIX with "x-" in *.
    destruct (String.prefix "x-" q) eqn:E; split; intros H1.
    - discriminate. - destruct (proj1 H eq_refl) as (r & Hr). now destruct (H1 r).
    - intros r Hr. enough (false = true) by discriminate. apply H. eauto. - reflexivity. }
  assert (E2 : is_coordinator_queue q = false <-> ~ In q ["pending"; "started"; "completed"; "error"; "heartbeat"; "jobs"; "logs"; "progress"; "redeliveries"]).
  { unfold is_coordinator_queue. rewrite <- not_true_iff_false, existsb_exists. split; intros H H1; apply H.
    - exists q. split; [exact H1|apply String.eqb_refl].
    - destruct H1 as (x & Hx & Hq). apply String.eqb_eq in Hq. subst x. exact Hx. }
  rewrite E1, E2. intuition.
Qed.

Lemma validate_expr_spec s : validate_expr s = true <-> optional expression s.
Proof. unfold validate_expr, optional, expression. destruct (isempty_spec s) as [->|Hn]; cbn [orb]; tauto. Qed.
Lemma validate_duration_spec s : validate_duration s = true <-> optional duration s.
Proof. unfold validate_duration, optional, duration. destruct (isempty_spec s) as [->|Hn]; cbn [orb]; tauto. Qed.

Lemma mount_char_spec c : mount_char c = true <->
  In c (list_ascii_of_string "-/._= 0123456789abcdefghijklmnopqrstuvwxyzABCDEFGHIJKLMNOPQRSTUVWXYZ").
Proof.
  assert (H : forall c, Bool.eqb (mount_char c) (existsb (Ascii.eqb c) (list_ascii_of_string "-/._= 0123456789abcdefghijklmnopqrstuvwxyzABCDEFGHIJKLMNOPQRSTUVWXYZ")) = true).
  { intros [[] [] [] [] [] [] [] []]; vm_compute; reflexivity. }
  specialize (H c). apply eqb_prop in H. rewrite H, existsb_exists. split.
  - intros (x & Hx & E). apply Ascii.eqb_eq in E. now subst.
  - intros Hc. exists c. split; [exact Hc|apply Ascii.eqb_refl].
Qed.
Lemma all_chars_spec f s : all_chars f s = true <-> forall c, In c (list_ascii_of_string s) -> f c = true.
Proof.
  induction s as [|a s IH]; cbn; [intuition|]. rewrite andb_true_iff, IH. split.
  - intros [H1 H2] c [<-|Hc]; auto.
  - intros H. split; auto.
Qed.
Lemma mount_pattern_spec s : mount_pattern s = true <-> path_of_mount s.
Proof.
  unfold mount_pattern, path_of_mount. rewrite andb_true_iff, negb_true_iff, all_chars_spec.
  destruct (isempty_spec s) as [->|Hn]; [split; intros [H _]; [discriminate|congruence]|].
  split; intros [_ H]; (split; [auto|]); intros c Hc; apply mount_char_spec, H, Hc.
Qed.
Lemma validate_mount_spec m : validate_mount m = true <-> good_mount (to_mount m).
Proof.
  unfold validate_mount, good_mount, optional. cbn [to_mount m_type m_source m_target].
  pose proof (mount_pattern_spec (im_source m)) as Ps. pose proof (mount_pattern_spec (im_target m)) as Pt.
  destruct (isempty_spec (im_type m)) as [E|Ht]; [split; [discriminate|tauto]|].
  destruct (String.eqb_spec (im_type m) "volume") as [Ev|Ev]; destruct (String.eqb_spec (im_type m) "bind") as [Eb|Eb]; try congruence;
  destruct (isempty_spec (im_source m)) as [Es|Es]; destruct (isempty_spec (im_target m)) as [Et|Et]; cbn;
  destruct (mount_pattern (im_source m)); destruct (mount_pattern (im_target m)); cbn;
  destruct (String.eqb_spec (im_target m) "/tork") as [Ek|Ek];
  try (rewrite Es in *); try (rewrite Et in *); try discriminate;
  (split; [try discriminate; intros _; repeat split; try tauto; try congruence|intros (H1 & H2 & H3 & H4 & H5 & H6); try reflexivity; exfalso; first [tauto|intuition congruence]]).

Qed.

Lemma validate_retry_spec r : validate_retry r = true <-> good_retry (match r with Some n => Some (mkRetry n 0) | None => None end).
Proof.
  destruct r as [n|]; cbn; [|tauto]. rewrite !andb_true_iff, negb_true_iff, Z.eqb_neq, !Z.leb_le. lia.
Qed.
Lemma validate_probe_spec p : validate_probe p = true <-> good_probe p.
Proof.
  destruct p as [p|]; cbn; [|tauto].
  rewrite !andb_true_iff, validate_duration_spec, !negb_true_iff, Z.eqb_neq, !Z.leb_le, Nat.leb_le.
  destruct (isempty_spec (pb_path p)); intuition (try discriminate; lia).
Qed.
Lemma validate_aux_spec a : validate_aux a = true <-> good_aux (to_aux a).
Proof.
  unfold validate_aux, good_aux. cbn. rewrite andb_true_iff, negb_true_iff, validate_probe_spec.
  destruct (isempty_spec (ia_name a)); intuition discriminate.
Qed.
Lemma validate_webhook_spec w : validate_webhook w = true <-> good_webhook w.
Proof.
  unfold validate_webhook, good_webhook. rewrite andb_true_iff, negb_true_iff, validate_expr_spec.
  destruct (isempty_spec (wh_url w)); intuition discriminate.
Qed.
Lemma validate_autodelete_spec a : validate_autodelete a = true <-> good_autodelete a.
Proof. destruct a as [a|]; cbn; [apply validate_duration_spec|tauto]. Qed.

Lemma forallb_map {A B} (f : A -> bool) (g : A -> B) (P : B -> Prop) l :
  (forall a, f a = true <-> P (g a)) -> (forallb f l = true <-> Forall P (map g l)).
Proof.
  intros H. induction l as [|a l IH]; cbn; [intuition|]. rewrite andb_true_iff, IH, H. split.
  - intros [H1 H2]. now constructor.
  - intros HF. inversion HF; auto.
Qed.

(** the checks on one task itself *)
Definition validate_here (t : itask) : bool :=
  negb (isempty (i_name t)) && validate_queue (i_queue t) && forallb validate_aux (i_pre t) &&
  forallb validate_aux (i_post t) && forallb validate_aux (i_sidecars t) && forallb validate_mount (i_mounts t) &&
  validate_retry (i_retry t) && validate_duration (i_timeout t) && (runes (i_var t) <=? 64)%nat && validate_expr (i_if t) &&
  match i_parallel t with
  | Some p => negb (empty (ip_tasks p))
  | None => true end &&
  match i_each t with
  | Some e => negb (isempty (ie_list e)) && validate_expr (ie_list e) &&
              (0 <=? ie_concurrency e) && (ie_concurrency e <=? 99999)
  | None => true end &&
  match i_subjob t with
  | Some s => negb (isempty (is_name s)) && negb (unset (is_tasks s)) && validate_autodelete (is_autodelete s) &&
              forallb validate_webhook (is_webhooks s)
  | None => true end &&
  (runes (i_workdir t) <=? 256)%nat && (0 <=? i_priority t) && (i_priority t <=? 9) &&
  task_type_validation t && composite_task_validation t.
Definition subs_ok (t : itask) : Prop := match i_subjob t with Some s => is_tasks s <> None | None => True end.

Lemma validate_task_eq t : validate_task t = true <->
  validate_here t = true /\
  match i_parallel t with Some p => forall c, In c (ip_tasks p) -> validate_task c = true | None => True end /\
  match i_each t with Some e => validate_task (ie_task e) = true | None => True end.
Proof.
  destruct t. cbn -[validate_here]. unfold validate_here. cbn.
  rewrite !andb_true_iff. destruct i_parallel0 as [p|]; destruct i_each0 as [e|];
  rewrite ?andb_true_iff, ?forallb_forall; intuition.
Qed.

Lemma isempty_iff s : isempty s = true <-> s = "".
Proof. destruct (isempty_spec s); intuition discriminate. Qed.
Lemma empty_iff {A B} (f : A -> B) (l : list A) : empty l = true <-> map f l = [].
Proof. destruct l; cbn; intuition discriminate. Qed.
Lemma empty_iff0 {A} (l : list A) : empty l = true <-> l = [].
Proof. destruct l; cbn; intuition discriminate. Qed.
Lemma unset_iff {A} (o : option A) : unset o = true <-> o = None.
Proof. destruct o; cbn; intuition discriminate. Qed.
Lemma noexec_spec t :
  isempty (i_image t) && empty (i_cmd t) && empty (i_entrypoint t) && isempty (i_run t) && empty (i_env t) &&
       isempty (i_queue t) && empty (i_pre t) && empty (i_post t) && empty (i_mounts t) && unset (i_retry t) &&
       unset (i_limits t) && isempty (i_timeout t) = true <-> no_execution (to_task t).
Proof.
  unfold no_execution. destruct t. cbn [to_task t_image t_cmd t_entrypoint t_run t_env t_queue t_pre t_post t_mounts t_retry t_limits t_timeout
    i_image i_cmd i_entrypoint i_run i_env i_queue i_pre i_post i_mounts i_retry i_limits i_timeout].
  rewrite !andb_true_iff, !isempty_iff, (empty_iff to_aux i_pre0), (empty_iff to_aux i_post0), (empty_iff to_mount i_mounts0), !empty_iff0, !unset_iff.
  assert (E : i_retry0 = None <-> match i_retry0 with Some n => Some (mkRetry n 0) | None => None end = None) by (destruct i_retry0; intuition discriminate).
  rewrite <- E. rewrite <- !and_assoc. reflexivity.
Qed.
Lemma kind_spec t :
  match i_parallel t with Some p => ip_tasks p <> [] | None => True end /\
  match i_each t with Some e => ie_list e <> "" /\ expression (ie_list e) /\ 0 <= ie_concurrency e <= 99999 | None => True end /\
  match i_subjob t with Some s => is_name s <> "" /\ is_tasks s <> None /\ good_autodelete (is_autodelete s) /\ Forall good_webhook (is_webhooks s) | None => True end /\
  task_type_validation t = true /\ composite_task_validation t = true <-> good_kind (to_task t) /\ subs_ok t.
Proof.
  unfold composite_task_validation. pose proof (noexec_spec t) as NE.
  match type of NE with ?x = true <-> _ => destruct x end.
  - assert (NX : no_execution (to_task t)) by tauto. clear NE. unfold good_kind, task_type_validation, subs_ok, regular.
    destruct t; cbn -[no_execution] in *.
    destruct i_parallel0 as [p|]; destruct i_each0 as [e|]; destruct i_subjob0 as [s|]; cbn -[no_execution] in *;
    (split; [intros (H1 & H2 & H3 & H4 & H5)|intros (H & H')]); try discriminate.
    all: try (destruct H as [(R1 & R2 & R3)|(_ & [(p' & E & H1 & H2 & H3 & H4)|[(e' & E & H1 & H2 & H3 & H4 & H5)|(s' & E & H1 & H2 & H3 & H4 & H5)]])]);
      try discriminate; try (injection E as <-; cbn in *).
    all: repeat split; try tauto; try (intros ->; cbn in *; congruence).
    + right; split; [exact NX|]. left; eexists; cbn; repeat split; eauto; intros EM; apply map_eq_nil in EM; congruence.
    + intros Ep. rewrite Ep in H1. now apply H1.
    + right; split; [exact NX|]. right; left; eexists; cbn; repeat split; eauto; tauto.
    + right; split; [exact NX|]. right; right; eexists; cbn; repeat split; eauto; tauto.
  - assert (NX : ~ no_execution (to_task t)) by (intros N; apply NE in N; discriminate). clear NE. unfold good_kind, task_type_validation, subs_ok, regular.
    destruct t; cbn -[no_execution] in *.
    destruct i_parallel0 as [p|]; destruct i_each0 as [e|]; destruct i_subjob0 as [s|]; cbn -[no_execution] in *; intuition discriminate.
Qed.

(** [good_task] of the result, and the list of a sub-job's tasks is there, is what the checks on the task itself say *)
Lemma validate_here_spec t : validate_here t = true <-> good_task (to_task t) /\ subs_ok t.
Proof.
  unfold validate_here, good_task. rewrite !andb_true_iff.
  pose proof (kind_spec t) as K.
  rewrite (forallb_map validate_aux to_aux good_aux (i_pre t) validate_aux_spec), (forallb_map validate_aux to_aux good_aux (i_post t) validate_aux_spec),
    (forallb_map validate_aux to_aux good_aux (i_sidecars t) validate_aux_spec), (forallb_map validate_mount to_mount good_mount (i_mounts t) validate_mount_spec),
    validate_queue_spec, validate_retry_spec, validate_duration_spec, validate_expr_spec, !Nat.leb_le, !Z.leb_le, negb_true_iff.
  assert (EN : isempty (i_name t) = false <-> i_name t <> "") by (destruct (isempty_spec (i_name t)); intuition discriminate).
  assert (EP : match i_parallel t with Some p => negb (empty (ip_tasks p)) | None => true end = true <->
               match i_parallel t with Some p => ip_tasks p <> [] | None => True end).
  { destruct (i_parallel t) as [p|]; [|tauto]. rewrite negb_true_iff. destruct (empty_spec (ip_tasks p)); intuition discriminate. }
  assert (EE : match i_each t with Some e => negb (isempty (ie_list e)) && validate_expr (ie_list e) &&
              (0 <=? ie_concurrency e) && (ie_concurrency e <=? 99999) | None => true end = true <->
      match i_each t with Some e => ie_list e <> "" /\ expression (ie_list e) /\ 0 <= ie_concurrency e <= 99999 | None => True end).
  { destruct (i_each t) as [e|]; [|tauto]. rewrite !andb_true_iff, negb_true_iff, validate_expr_spec, !Z.leb_le. unfold optional.
    destruct (isempty_spec (ie_list e)); intuition discriminate. }
  assert (ES : match i_subjob t with Some s => negb (isempty (is_name s)) && negb (unset (is_tasks s)) && validate_autodelete (is_autodelete s) &&
              forallb validate_webhook (is_webhooks s) | None => true end = true <->
      match i_subjob t with Some s => is_name s <> "" /\ is_tasks s <> None /\ good_autodelete (is_autodelete s) /\ Forall good_webhook (is_webhooks s) | None => True end).
  { destruct (i_subjob t) as [s|]; [|tauto].
    rewrite !andb_true_iff, !negb_true_iff, validate_autodelete_spec, (forallb_map validate_webhook (fun w => w) good_webhook _ validate_webhook_spec), map_id.
    destruct (isempty_spec (is_name s)); destruct (unset_spec (is_tasks s)); intuition discriminate. }
  rewrite EN, EP, EE, ES. clear EN EP EE ES.
  destruct t. cbn [to_task t_name t_queue t_pre t_post t_sidecars t_mounts t_retry t_timeout t_var t_if t_workdir t_priority
    i_name i_queue i_pre i_post i_sidecars i_mounts i_retry i_timeout i_var i_if i_workdir i_priority i_parallel i_each i_subjob] in *.
  tauto.
Qed.


(** ** All levels *)
Section ItaskInd.
Variable P : itask -> Prop.
Hypothesis step : forall t,
  match i_parallel t with Some p => Forall P (ip_tasks p) | None => True end ->
  match i_each t with Some e => P (ie_task e) | None => True end ->
  match i_subjob t with Some s => match is_tasks s with Some l => Forall P l | None => True end | None => True end -> P t.
Fixpoint itask_deep (t : itask) : P t.
Proof.
  apply step; destruct t as [? ? ? ? ? ? ? ? ? ? ? ? ? ? ? ? ? ? ? ? pa ea su ? ? ? ?]; cbn.
  - destruct pa as [[l]|]; [|exact I]. cbn. induction l as [|a l IH]; constructor; [apply itask_deep|exact IH].
  - destruct ea as [[? ? e ?]|]; [|exact I]. apply itask_deep.
  - destruct su as [[? ? ? l ? ? ? ? ? ?]|]; [|exact I]. cbn. destruct l as [l|]; [|exact I].
    induction l as [|a l IH]; constructor; [apply itask_deep|exact IH].
Defined.
End ItaskInd.

(** the parts of an input that validation enters *)
Inductive ipart : itask -> itask -> Prop :=
| ipart_self t : ipart t t
| ipart_parallel u c p t : i_parallel t = Some p -> In c (ip_tasks p) -> ipart u c -> ipart u t
| ipart_each u e t : i_each t = Some e -> ipart u (ie_task e) -> ipart u t.

Lemma to_task_parallel i : t_parallel (to_task i) = match i_parallel i with Some p => Some (mkParallel (map to_task (ip_tasks p)) 0) | None => None end.
Proof. now destruct i. Qed.
Lemma to_task_each i : t_each (to_task i) = match i_each i with Some e => Some (mkEach (ie_var e) (ie_list e) (to_task (ie_task e)) 0 0 (ie_concurrency e) 0) | None => None end.
Proof. now destruct i. Qed.
Lemma to_task_subjob i : t_subjob (to_task i) = match i_subjob i with
     | Some s => Some (mkSubJob noid (is_name s) (is_description s)
                         (match is_tasks s with Some l => map to_task l | None => [] end) (is_inputs s) (is_secrets s)
                         (is_autodelete s) (is_output s) (is_detached s) (is_webhooks s))
     | None => None end.
Proof. now destruct i. Qed.

Lemma part_input u t : part u t -> forall i, t = to_task i -> exists k, ipart k i /\ u = to_task k.
Proof.
  induction 1 as [t|u c p t Hp Hc H IH|u e t He H IH]; intros i ->.
  - exists i. split; [constructor|reflexivity].
  - rewrite to_task_parallel in Hp. destruct (i_parallel i) as [p'|] eqn:E; [|discriminate]. injection Hp as <-. cbn in Hc.
    apply in_map_iff in Hc as (c' & <- & Hc). destruct (IH _ eq_refl) as (k & Hk & ->). exists k. split; [|reflexivity]. econstructor; eauto.
  - rewrite to_task_each in He. destruct (i_each i) as [e'|] eqn:E; [|discriminate]. injection He as <-. cbn in *.
    destruct (IH _ eq_refl) as (k & Hk & ->). exists k. split; [|reflexivity]. eapply ipart_each; eauto.
Qed.
Lemma ipart_part k i : ipart k i -> part (to_task k) (to_task i).
Proof.
  induction 1 as [t|u c p t Hp Hc H IH|u e t He H IH].
  - constructor.
  - eapply part_parallel; [rewrite to_task_parallel, Hp; reflexivity|cbn; apply in_map, Hc|exact IH].
  - eapply part_each; [rewrite to_task_each, He; reflexivity|exact IH].
Qed.

Lemma validate_task_parts t : validate_task t = true <-> forall k, ipart k t -> validate_here k = true.
Proof.
  induction t as [t IHp IHe _] using itask_deep. rewrite validate_task_eq. split.
  - intros (H1 & H2 & H3) k Hk. destruct Hk as [t|u c p t Hp Hc H|u e t He H].
    + exact H1.
    + rewrite Hp in IHp, H2. rewrite Forall_forall in IHp. now apply (IHp c Hc); [apply H2|].
    + rewrite He in IHe, H3. now apply IHe.
  - intros H. split; [apply H; constructor|]. split.
    + destruct (i_parallel t) as [p|] eqn:Ep; [|exact I]. intros c Hc. rewrite Forall_forall in IHp. apply (IHp c Hc). intros k Hk.
      apply H. eapply ipart_parallel; eauto.
    + destruct (i_each t) as [e|] eqn:Ee; [|exact I]. apply IHe. intros k Hk. apply H. eapply ipart_each; eauto.
Qed.

Lemma validate_perm_spec p : validate_perm p = true <-> good_permission (to_perm p) /\ (ip_user p = "" \/ ip_role p = "").
Proof.
  unfold validate_perm, good_permission, to_perm. rewrite !andb_true_iff, !negb_true_iff.
  change (String.eqb (ip_role p) "") with (String.eqb (ip_role p) EmptyString).
  destruct (String.eqb_spec (ip_role p) "") as [Er|Er].
  - rewrite Er. cbn. destruct (isempty_spec (ip_user p)) as [Eu|Eu]; cbn.
    + split; [intros (((? & _) & _) & _); discriminate|].
      intros [[(r & H & _)|(u & _ & H & H1 & _)] _]; [discriminate|]. injection H as <-. cbn in H1. congruence.
    + split.
      * intros (((_ & _) & H) & _). split; [|auto]. right. eexists. repeat split; eauto.
      * intros [[(r & H & _)|(u & _ & H & H1 & H2)] _]; [discriminate|]. injection H as <-. auto.
  - cbn. destruct (isempty_spec (ip_role p)) as [Er'|_]; [congruence|]. cbn. destruct (isempty_spec (ip_user p)) as [Eu|Eu]; cbn.
    + split.
      * intros (_ & H). split; [|auto]. left. eexists. repeat split; eauto.
      * intros [[(r & H & _ & H1 & H2)|(u & H & _)] _]; [|discriminate]. injection H as <-. auto.
    + split; [intros (((_ & ?) & _) & _); discriminate|]. intros (_ & [H|H]); congruence.
Qed.

Lemma validate_defaults_spec d : validate_defaults d = true <-> good_defaults (match d with Some d => Some (to_defaults d) | None => None end).
Proof.
  destruct d as [d|]; cbn; [|tauto]. rewrite !andb_true_iff, validate_retry_spec, validate_duration_spec, validate_queue_spec, !Z.leb_le. tauto.
Qed.

(** ** C50 *)
(** what the resulting job does not show: a permission that names both a user and a role, sub-jobs without any task list,
    and the time a client is willing to wait *)
Definition well_formed (j : ijob) : Prop :=
  (forall p, In p (ij_permissions j) -> ip_user p = "" \/ ip_role p = "") /\
  (forall t k s, In t (ij_tasks j) -> ipart k t -> i_subjob k = Some s -> is_tasks s <> None) /\
  (forall s, ij_wait j = Some s -> s <> "" /\ duration s).

Theorem C50_accepted_iff_valid : forall j cj by_, validate j = true <-> good_job (to_def cj by_ j) /\ well_formed j.
Proof.
  intros j cj by_. unfold validate, good_job, well_formed. cbn [to_def j_name j_tasks j_output j_defaults j_webhooks j_permissions j_autodelete].
  rewrite !andb_true_iff, validate_expr_spec, validate_defaults_spec, validate_autodelete_spec, !negb_true_iff,
    (forallb_map validate_webhook (fun w => w) good_webhook _ validate_webhook_spec), map_id, !forallb_forall, Forall_map, !Forall_forall.
  assert (EN : isempty (ij_name j) = false <-> ij_name j <> "") by (destruct (isempty_spec (ij_name j)); intuition discriminate).
  assert (ET : empty (ij_tasks j) = false <-> map to_task (ij_tasks j) <> []).
  { destruct (ij_tasks j); cbn; intuition discriminate. }
  assert (EW : match ij_wait j with Some s => validate_duration s && negb (isempty s) | None => true end = true <->
               forall s, ij_wait j = Some s -> s <> "" /\ duration s).
  { destruct (ij_wait j) as [s|].
    - rewrite andb_true_iff, negb_true_iff, validate_duration_spec. unfold optional. destruct (isempty_spec s) as [->|Hn]; cbn.
      + split; [intros [_ H]; discriminate|]. intros H. destruct (H "" eq_refl); congruence.
      + split; [intros [H _] s' Hs; injection Hs as <-; tauto|]. intros H. split; [right; now apply H|reflexivity].
    - split; [discriminate|reflexivity]. }
  assert (EP : (forall x, In x (ij_permissions j) -> validate_perm x = true) <->
     (forall x, In x (ij_permissions j) -> good_permission (to_perm x)) /\ (forall x, In x (ij_permissions j) -> ip_user x = "" \/ ip_role x = "")).
  { split; [intros H; split; intros x Hx; now apply validate_perm_spec, H|]. intros [H1 H2] x Hx. apply validate_perm_spec. auto. }
  assert (EB : (forall x, In x (ij_tasks j) -> validate_task x = true) <->
     (forall t u, In t (map to_task (ij_tasks j)) -> part u t -> good_task u) /\
     (forall t k s, In t (ij_tasks j) -> ipart k t -> i_subjob k = Some s -> is_tasks s <> None)).
  { split.
    - intros H. split.
      + intros t u Ht Hu. apply in_map_iff in Ht as (i & <- & Hi). destruct (part_input _ _ Hu _ eq_refl) as (k & Hk & ->).
        apply validate_here_spec. exact (proj1 (validate_task_parts i) (H i Hi) k Hk).
      + intros t k s Ht Hk Hs. pose proof (proj1 (validate_task_parts t) (H t Ht) k Hk) as V. apply validate_here_spec in V as [_ V].
        unfold subs_ok in V. now rewrite Hs in V.
    - intros [H1 H2] t Ht. apply validate_task_parts. intros k Hk. apply validate_here_spec. split.
      + apply (H1 (to_task t)); [now apply in_map|now apply ipart_part].
      + unfold subs_ok. destruct (i_subjob k) as [s|] eqn:Es; [|exact I]. eapply H2; eauto. }
  rewrite EN, ET, EW, EP, EB. tauto.
Qed.

(** The user sets nothing the system keeps for itself, at any depth: identifiers, states, counters, results. *)
Lemma to_task_pristine i : pristine (to_task i).
Proof.
  induction i as [t IHp IHe IHs] using itask_deep.
  assert (Fold : forall l, Forall (fun c => pristine (to_task c)) l -> fold_right (fun c P => pristine c /\ P) True (map to_task l)).
  { induction 1; cbn; auto. }
  destruct t; cbn in *. repeat (split; [reflexivity|]). split; [destruct i_retry0; [reflexivity|exact I]|]. split; [|split].
  - destruct i_parallel0 as [p|]; [|exact I]. split; [reflexivity|]. now apply Fold.
  - destruct i_each0 as [e|]; [|exact I]. repeat (split; [reflexivity|]). exact IHe.
  - destruct i_subjob0 as [s|]; [|exact I]. split; [reflexivity|]. cbn. destruct (is_tasks s); [now apply Fold|exact I].
Qed.

(** Every job the API accepts is one the machine of System.v takes as a submission. *)
Theorem C50_machine_takes_it : forall j cj by_, validate j = true -> accepted (to_def cj by_ j).
Proof.
  intros j cj by_ H. apply (C50_accepted_iff_valid j cj by_) in H as [(_ & HT & _ & _ & HD & _) _]. split; [exact HT|]. split.
  - cbn. rewrite Forall_map, Forall_forall. intros i _. apply to_task_pristine.
  - unfold defaults_ok. destruct (j_defaults (to_def cj by_ j)) as [d|]; [|exact I]. destruct HD as (HR & _). destruct (d_retry d) as [r|]; [|exact I]. cbn in HR. lia.
Qed.

(** ** C40 *)
(** every queue a job names outside its sub-jobs *)
Theorem C40_accepted_queues : forall j cj by_, validate j = true ->
  let d := to_def cj by_ j in
  (forall t u, In t (j_tasks d) -> part u t -> optional user_queue (t_queue u)) /\ optional user_queue (d_queue (defaults_of d)).
Proof.
  intros j cj by_ H. cbn zeta. apply (C50_accepted_iff_valid j cj by_) in H as [(_ & _ & HT & _ & HD & _) _]. split.
  - intros t u Ht Hu. destruct (HT t u Ht Hu) as (_ & HQ & _). exact HQ.
  - unfold defaults_of. destruct (j_defaults (to_def cj by_ j)) as [d|]; [|left; reflexivity]. destruct HD as (_ & _ & HQ & _). exact HQ.
Qed.

(** ** and the result is given back exactly as written: nothing is lost, nothing is invented *)
(** the stored task [t] is the submitted task [i], at every depth *)
Definition aux_stored (a : iaux) (t : task) : Prop :=
  t_name t = ia_name a /\ t_description t = ia_description a /\ t_cmd t = ia_cmd a /\ t_entrypoint t = ia_entrypoint a /\
  t_run t = ia_run a /\ t_image t = ia_image a /\ t_registry t = ia_registry a /\ t_env t = ia_env a /\
  t_files t = ia_files a /\ t_timeout t = ia_timeout a /\ t_probe t = ia_probe a /\
  t_pre t = [] /\ t_post t = [] /\ t_sidecars t = [] /\ t_mounts t = [] /\ t_networks t = [] /\ t_parallel t = None /\
  t_each t = None /\ t_subjob t = None /\ t_result t = "" /\ t_error t = "".
Definition mount_stored (a : imount) (m : mount) : Prop :=
  m_type m = im_type a /\ m_source m = im_source a /\ m_target m = im_target a /\ m_opts m = im_opts a.
Fixpoint task_stored (i : itask) (t : task) {struct i} : Prop :=
  t_name t = i_name i /\ t_description t = i_description i /\ t_cmd t = i_cmd i /\ t_entrypoint t = i_entrypoint i /\
  t_run t = i_run i /\ t_image t = i_image i /\ t_registry t = i_registry i /\ t_env t = i_env i /\ t_files t = i_files i /\
  t_queue t = i_queue i /\ t_networks t = i_networks i /\ t_limits t = i_limits i /\ t_timeout t = i_timeout i /\
  t_var t = i_var i /\ t_if t = i_if i /\ t_gpus t = i_gpus i /\ t_tags t = i_tags i /\ t_workdir t = i_workdir i /\
  t_priority t = i_priority i /\ t_result t = "" /\ t_error t = "" /\
  Forall2 aux_stored (i_pre i) (t_pre t) /\ Forall2 aux_stored (i_post i) (t_post t) /\
  Forall2 aux_stored (i_sidecars i) (t_sidecars t) /\ Forall2 mount_stored (i_mounts i) (t_mounts t) /\
  match i_retry i, t_retry t with Some n, Some r => r_limit r = n /\ r_attempts r = 0 | None, None => True | _, _ => False end /\
  match i_parallel i, t_parallel t with
  | Some p, Some q => (fix all (l : list itask) (k : list task) : Prop := match l, k with
      | [], [] => True | a :: l, b :: k => task_stored a b /\ all l k | _, _ => False end) (ip_tasks p) (p_tasks q) /\ p_completions q = 0
  | None, None => True | _, _ => False end /\
  match i_each i, t_each t with
  | Some e, Some f => e_var f = ie_var e /\ e_list f = ie_list e /\ task_stored (ie_task e) (e_task f) /\
                      e_concurrency f = ie_concurrency e /\ e_size f = 0 /\ e_completions f = 0 /\ e_index f = 0
  | None, None => True | _, _ => False end /\
  match i_subjob i, t_subjob t with
  | Some u, Some v => s_name v = is_name u /\ s_description v = is_description u /\ s_inputs v = is_inputs u /\
      s_secrets v = is_secrets u /\ s_autodelete v = is_autodelete u /\ s_output v = is_output u /\
      s_detached v = is_detached u /\ s_webhooks v = is_webhooks u /\
      match is_tasks u with
      | Some l => (fix all (l : list itask) (k : list task) : Prop := match l, k with
          | [], [] => True | a :: l, b :: k => task_stored a b /\ all l k | _, _ => False end) l (s_tasks v)
      | None => s_tasks v = [] end
  | None, None => True | _, _ => False end.
Lemma Forall2_map_r {A B} (P : A -> B -> Prop) (f : A -> B) l : (forall a, P a (f a)) -> Forall2 P l (map f l).
Proof. intros H. induction l; constructor; auto. Qed.
Theorem C50_task_converted : forall i, task_stored i (to_task i).
Proof.
  fix IH 1. intros i. destruct i as [nm de cm en ru im re ev fi qu pr po si mo ne rt li ti va i_f par ea su gp tg wd prio].
  assert (HL : forall l, (fix all (l : list itask) (k : list task) : Prop := match l, k with
      | [], [] => True | a :: l, b :: k => task_stored a b /\ all l k | _, _ => False end) l (map to_task l)).
  { clear - IH. induction l as [|a l IHl]; [exact Logic.I|]. split; [apply IH|exact IHl]. }
  assert (HA : forall l, Forall2 aux_stored l (map to_aux l)) by (intros l; apply Forall2_map_r; intros a; repeat split).
  assert (HM : forall l, Forall2 mount_stored l (map to_mount l)) by (intros l; apply Forall2_map_r; intros a; repeat split).
  cbn [to_task task_stored i_name i_description i_cmd i_entrypoint i_run i_image i_registry i_env i_files i_queue i_pre i_post
       i_sidecars i_mounts i_networks i_retry i_limits i_timeout i_var i_if i_parallel i_each i_subjob i_gpus i_tags i_workdir i_priority
       t_name t_description t_cmd t_entrypoint t_run t_image t_registry t_env t_files t_queue t_pre t_post t_sidecars t_mounts
       t_networks t_retry t_limits t_timeout t_var t_if t_parallel t_each t_subjob t_gpus t_tags t_workdir t_priority t_result t_error].
  repeat match goal with |- _ /\ _ => split end; try reflexivity; try apply HA; try apply HM.
  - destruct rt; [split; reflexivity|exact Logic.I].
  - destruct par as [p|]; [|exact Logic.I]. split; [apply HL|reflexivity].
  - destruct ea as [e|]; [|exact Logic.I]. cbn [e_var e_list e_task e_concurrency e_size e_completions e_index].
    repeat match goal with |- _ /\ _ => split end; try reflexivity. destruct e as [v l t c]. apply IH.
  - destruct su as [u|]; [|exact Logic.I]. cbn [s_name s_description s_inputs s_secrets s_autodelete s_output s_detached s_webhooks s_tasks].
    repeat match goal with |- _ /\ _ => split end; try reflexivity. destruct (is_tasks u); [apply HL|reflexivity].
Qed.
Definition perm_stored (p : iperm) (q : permission) : Prop :=
  (ip_role p <> "" -> exists r, pm_role q = Some r /\ ro_slug r = ip_role p /\ pm_user q = None) /\
  (ip_role p = "" -> exists u, pm_user q = Some u /\ u_username u = ip_user p /\ pm_role q = None).
Definition defaults_stored (d : idefaults) (e : jobdefaults) : Prop :=
  option_map r_limit (d_retry e) = id_retry d /\ d_limits e = id_limits d /\ d_timeout e = id_timeout d /\
  d_queue e = id_queue d /\ d_priority e = id_priority d.
Theorem C50_converted : forall j cj by_ i n,
  let s := new_job i n (to_def cj by_ j) in
  j_id s = i /\ j_name s = ij_name j /\ j_description s = ij_description j /\ j_tags s = ij_tags j /\
  Forall2 task_stored (ij_tasks j) (j_tasks s) /\ j_inputs s = ij_inputs j /\ j_secrets s = ij_secrets j /\
  j_output s = ij_output j /\ j_webhooks s = ij_webhooks j /\ j_autodelete s = ij_autodelete j /\
  Forall2 perm_stored (ij_permissions j) (j_permissions s) /\
  match ij_defaults j, j_defaults s with Some d, Some e => defaults_stored d e | None, None => True | _, _ => False end /\
  j_state s = JPending /\ j_position s = 0 /\ j_createdby s = by_ /\ j_created s = n /\
  j_taskcount s = Z.of_nat (length (ij_tasks j)) /\
  c_inputs (j_context s) = ij_inputs j /\ c_secrets (j_context s) = ij_secrets j /\ c_tasks (j_context s) = [] /\
  c_job (j_context s) = cj /\ j_parent s = noid /\ j_execution s = [] /\ j_result s = "" /\ j_error s = "".
Proof.
  intros j cj by_ i n s. subst s.
  repeat match goal with |- _ /\ _ => split end; try reflexivity.
  - apply Forall2_map_r. apply C50_task_converted.
  - apply Forall2_map_r. intros p. unfold perm_stored, to_perm. destruct (String.eqb_spec (ip_role p) ""); split; intros; try contradiction; eexists; repeat split.
  - change (j_defaults (new_job i n (to_def cj by_ j))) with (match ij_defaults j with Some d => Some (to_defaults d) | None => None end).
    destruct (ij_defaults j) as [d|]; [|exact Logic.I]. unfold defaults_stored, to_defaults. cbn. destruct (id_retry d); repeat split.
  - cbn. now rewrite map_length.
Qed.
End Validation.
Print Assumptions C50_accepted_iff_valid.
Print Assumptions C50_machine_takes_it.
Print Assumptions C40_accepted_queues.
Print Assumptions C50_converted.
Print Assumptions C50_task_converted.

(** ** Where tasks go *)
Lemma first_set_In l : first_set l = "" \/ In (first_set l) l.
Proof. induction l as [|s l IH]; cbn; [auto|]. destruct s; [|auto]. destruct IH; auto. Qed.

(** A regular task whose queue (if any) and whose job's default queue (if any) are a user's is never sent by the scheduler
    to a queue of the coordinator or of a node, however the run is cut short. *)
Theorem C40_scheduled_to_user_queue : forall O w t j n m,
  regular t -> ~ false_padded (t_if t) -> find_job (t_job t) w = Some j ->
  optional user_queue (t_queue t) -> optional user_queue (d_queue (defaults_of j)) ->
  In m (w_hist (after n (pending_handler O t) w)) -> In m (w_hist w) \/ exists q t', m = MTask q t' /\ user_queue q /\ q <> "".
Proof.
  intros O w t j n m Hr Hif Hj Hq Hd Hm.
  destruct (C21_published_once_as_stored O w t n Hr Hif) as (_ & _ & [HP|(j' & t' & u' & HP & Hj' & HR & _)]); unfold published in HP; rewrite HP in Hm.
  - rewrite app_nil_r in Hm. auto.
  - apply in_app_or in Hm as [Hm|[<-|[]]]; [auto|]. right. eexists. eexists. split; [reflexivity|].
    rewrite Hj in Hj'. injection Hj' as <-. destruct HR as (HQ & _). rewrite HQ.
    assert (HD : user_queue "default") by (split; [cbn; intuition discriminate|intros r; discriminate]).
    cbn [first_set]. destruct Hq as [->|Hq].
    + destruct Hd as [->|Hd]; [split; [exact HD|discriminate]|].
      destruct (d_queue (defaults_of j)) eqn:E; [split; [exact HD|discriminate]|]. split; [exact Hd|discriminate].
    + destruct (t_queue t) eqn:E; [|split; [exact Hq|discriminate]].
      destruct Hd as [->|Hd]; [split; [exact HD|discriminate]|].
      destruct (d_queue (defaults_of j)) eqn:E'; [split; [exact HD|discriminate]|]. split; [exact Hd|discriminate].
Qed.
Print Assumptions C40_scheduled_to_user_queue.

(** What validation checks is what is used: a queue name the template evaluator leaves alone is unchanged. *)
Theorem C40_plain_queue_kept : forall f t t', eval_task f t = inl t' -> f (t_queue t) = inl (t_queue t) -> t_queue t' = t_queue t.
Proof.
  intros f t t' H E. destruct t; cbn in *. rewrite E in H.
  repeat match type of H with context [match ?x with inl _ => _ | inr _ => _ end] => destruct x; [|discriminate] end.
  injection H as <-. reflexivity.
Qed.
Print Assumptions C40_plain_queue_kept.

(** ** Gaps *)
Definition plain (q : string) : itask :=
  mkITask "a" "" [] [] "" "img" None [] [] q [] [] [] [] [] None None "" "" "" None None None "" [] "" 0.
Definition with_sub (l : list itask) : itask :=
  mkITask "s" "" [] [] "" "" None [] [] "" [] [] [] [] [] None None "" "" "" None None
    (Some (mkISub "" "sub" "" (Some l) [] [] None "" false [])) "" [] "" 0.
Definition job_of_tasks (l : list itask) : ijob := mkIJob "j" "" [] l [] [] "" None [] [] None None.

(** a task of a sub-job may name any queue *)
Theorem C40_subjob_queue_refuted : exists j t u, forall cj by_,
  validate (fun _ => true) (fun _ => true) String.length (fun _ => true) (fun _ => true) j = true /\
  In t (j_tasks (to_def cj by_ j)) /\ any_part u t /\ t_queue u = "completed".
Proof.
  exists (job_of_tasks [with_sub [plain "completed"]]), (to_task (with_sub [plain "completed"])), (to_task (plain "completed")).
  intros cj by_. split; [reflexivity|]. split; [left; reflexivity|]. split; [|reflexivity].
  eapply any_subjob; [reflexivity|left; reflexivity|constructor].
Qed.
Print Assumptions C40_subjob_queue_refuted.

(** a templated queue name passes validation and evaluates to an internal queue *)
Theorem C40_templated_queue_refuted : exists O j t t' c, forall cj by_,
  validate (fun _ => true) (fun _ => true) String.length (fun _ => true) (fun _ => true) j = true /\
  In t (j_tasks (to_def cj by_ j)) /\ evaluate_task O t c = inl t' /\ t_queue t' = "completed".
Proof.
  exists (mkOracle unit (fun _ _ s => inl (if String.eqb s "{{inputs.q}}" then "completed" else s)) (fun _ _ => inl None) (fun _ => None)).
  exists (job_of_tasks [plain "{{inputs.q}}"]), (to_task (plain "{{inputs.q}}")), (to_task (plain "completed")), (mkCtx [] [("q", "completed")] [] []).
  intros cj by_. split; [reflexivity|]. split; [left; reflexivity|]. split; reflexivity.
Qed.
Print Assumptions C40_templated_queue_refuted.

(** sub-job tasks are not validated: no name, two kinds at once, a retry limit of -1, an empty list *)
Definition bad_task : itask :=
  mkITask "" "" [] [] "" "" None [] [] "" [] [] [] [] [] (Some (-1)) None "soon" "" "" (Some (mkIPar [])) (Some (mkIEach "" "" (plain "") (-3))) None "" [] "" 77.
Theorem C50_subjob_tasks_refuted : exists j1 j2 t1 t2 u s, forall cj by_,
  validate (fun _ => false) (fun _ => false) String.length (fun _ => false) (fun _ => false) j1 = true /\
  validate (fun _ => false) (fun _ => false) String.length (fun _ => false) (fun _ => false) j2 = true /\
  In t1 (j_tasks (to_def cj by_ j1)) /\ any_part u t1 /\ t_name u = "" /\ t_priority u = 77 /\ t_parallel u <> None /\ t_each u <> None /\
  In t2 (j_tasks (to_def cj by_ j2)) /\ t_subjob t2 = Some s /\ s_tasks s = [].
Proof.
  exists (job_of_tasks [with_sub [bad_task]]), (job_of_tasks [with_sub []]), (to_task (with_sub [bad_task])), (to_task (with_sub [])), (to_task bad_task).
  eexists. intros cj by_. split; [reflexivity|]. split; [reflexivity|]. split; [left; reflexivity|].
  split; [eapply any_subjob; [reflexivity|left; reflexivity|constructor]|].
  split; [reflexivity|]. split; [reflexivity|]. split; [discriminate|]. split; [discriminate|]. split; [left; reflexivity|]. split; reflexivity.
Qed.
Print Assumptions C50_subjob_tasks_refuted.

(** a nested job that is accepted, and the same with one bad retry limit deep inside *)
Definition nested (limit : Z) (m : imount) : ijob :=
  mkIJob "j" "" [] [mkITask "p" "" [] [] "" "" None [] [] "" [] [] [] [] [] None None "" "" "" (Some (mkIPar [plain "gpu";
     mkITask "e" "" [] [] "" "" None [] [] "" [] [] [] [] [] None None "" "" "" None (Some (mkIEach "x" "{{ l }}"
       (mkITask "c" "" [] [] "" "img" None [] [] "" [] [] [] [m] [] (Some limit) None "5s" "" "" None None None "" [] "" 3) 2)) None "" [] "" 0])) None None "" [] "" 0]
    [] [] "" (Some (mkIDefaults (Some 3) None "1m" "" 1)) [mkWebhook "http://x" [] "" ""] [mkIPerm "bob" ""] None None.
Example C50_nonvacuous :
  let v := validate (fun _ => true) (fun _ => true) String.length (String.eqb "bob") (fun _ => false) in
  v (nested 2 (mkIMount "bind" "/a b" "/x" [])) = true /\ v (nested 11 (mkIMount "bind" "/a b" "/x" [])) = false /\
  v (nested 0 (mkIMount "bind" "/a b" "/x" [])) = false /\ v (nested 10 (mkIMount "volume" "" "/tork" [])) = false /\
  v (nested 10 (mkIMount "bind" "/a;b" "/x" [])) = false /\ v (nested 10 (mkIMount "volume" "" "/data" [])) = true /\
  v (job_of_tasks [plain "x-1"]) = false /\ v (job_of_tasks [plain "logs"]) = false /\ v (job_of_tasks [plain "x"]) = true /\ v (job_of_tasks []) = false.
Proof. vm_compute. repeat split. Qed.
