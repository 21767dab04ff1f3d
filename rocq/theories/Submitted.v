(** C100: the job read back contains the document that was sent.
    A JSON document is decoded into the input types (api.go:389-399: unknown fields are refused; input/job.go:10-70,
    input/task.go:8-122), converted (input/job.go:85-144,198-233, input/task.go:115-313: [to_def], Validate.v), stored and read
    (datastore/postgres: [stored_job], Rows.v, C66) and written as JSON again (job.go:28-57, task.go:34-78: [enc_job], Wire.v).
    Simplified: keys are compared exactly (Go also takes other capitals); numbers are integers; secrets are not redacted here
    (C43); nesting is followed to any given depth; YAML documents are not modelled. *)
From Verif Require Import Types Handlers Validate StateProofs Wire Rows.
From Verif Require SchedRows.
Open Scope string_scope.
Open Scope list_scope.
Open Scope Z_scope.

(* ------------------------------------------------------------------ *)
(** * Specification *)
(** A value that says nothing. *)
Inductive blank : json -> Prop :=
| bl_null : blank JNull | bl_false : blank (JBool false) | bl_zero : blank (JNum 0) | bl_str : blank (JStr "") | bl_arr : blank (JArr []) | bl_obj : blank (JObj []).
(** [within a b]: everything [a] says, [b] says in the same place. *)
Inductive within : json -> json -> Prop :=
| w_null j : within JNull j
| w_bool b : within (JBool b) (JBool b)
| w_num z : within (JNum z) (JNum z)
| w_str s : within (JStr s) (JStr s)
| w_arr l l' : Forall2 within l l' -> within (JArr l) (JArr l')
| w_obj o o' : (forall k v, In (k, v) o -> blank v \/ exists v', In (k, v') o' /\ within v v') -> within (JObj o) (JObj o').
(** No object has two fields of the same name. *)
Fixpoint proper (j : json) : bool :=
  match j with
  | JArr l => forallb proper l
  | JObj o => distinct (map fst o) && forallb (fun p => proper (snd p)) o
  | _ => true
  end.

(* ------------------------------------------------------------------ *)
(** * Model: decoding *)
(** api.go:394-396 (DisallowUnknownFields); null leaves a struct at its zero value *)
Definition strict {A} (known : list string) (j : json) (f : (string -> option json) -> option A) : option A :=
  match j with
  | JObj o => if forallb (fun p => existsb (String.eqb (fst p)) known) o then f (get o) else None
  | JNull => f (fun _ => None)
  | _ => None
  end.
(** a field of struct type *)
Definition d_struct {A} (zero : A) (f : json -> option A) (j : option json) : option A :=
  match j with None | Some JNull => Some zero | Some j => f j end.
(** a slice that is nil or not *)
Definition d_slice {A} (f : json -> option A) (j : option json) : option (option (list A)) :=
  match j with None | Some JNull => Some None | Some j => match d_arr f (Some j) with Some l => Some (Some l) | None => None end end.
(** input/task.go:62-64 *)
Definition in_retry (j : json) : option Z := strict ["limit"] j (fun g => d_int (g "limit")).
(** input/task.go:66-69 *)
Definition in_limits (j : json) : option limits := strict ["cpus"; "memory"] j (fun g =>
  let? a := d_str (g "cpus") in let? b := d_str (g "memory") in Some (mkLimits a b)).
(** input/task.go:71-74 *)
Definition in_registry (j : json) : option registry := strict ["username"; "password"] j (fun g =>
  let? a := d_str (g "username") in let? b := d_str (g "password") in Some (mkRegistry a b)).
(** input/task.go:76-81 *)
Definition in_mount (j : json) : option imount := strict ["type"; "source"; "target"; "opts"] j (fun g =>
  let? a := d_str (g "type") in let? b := d_str (g "source") in let? c := d_str (g "target") in let? d := d_map (g "opts") in Some (mkIMount a b c d)).
(** input/task.go:109-113 *)
Definition in_probe (j : json) : option probe := strict ["path"; "port"; "timeout"] j (fun g =>
  let? a := d_str (g "path") in let? b := d_int (g "port") in let? c := d_str (g "timeout") in Some (mkProbe a b c)).
(** input/job.go:58-60 *)
Definition in_autodelete (j : json) : option autodelete := strict ["after"] j (fun g => let? a := d_str (g "after") in Some (mkAutoDelete a)).
(** input/job.go:62-67 *)
Definition in_webhook (j : json) : option webhook := strict ["url"; "headers"; "event"; "if"] j (fun g =>
  let? a := d_str (g "url") in let? b := d_map (g "headers") in let? c := d_str (g "event") in let? d := d_str (g "if") in Some (mkWebhook a b c d)).
(** input/task.go:83-94 *)
Definition in_aux (j : json) : option iaux :=
  strict ["name"; "description"; "cmd"; "entrypoint"; "run"; "image"; "registry"; "env"; "files"; "timeout"] j (fun g =>
  let? a := d_str (g "name") in let? b := d_str (g "description") in let? c := d_arr d_string (g "cmd") in let? d := d_arr d_string (g "entrypoint") in
  let? e := d_str (g "run") in let? f := d_str (g "image") in let? h := d_ptr in_registry (g "registry") in let? i := d_map (g "env") in
  let? k := d_map (g "files") in let? l := d_str (g "timeout") in Some (mkIAux a b c d e f h i k l None)).
(** input/task.go:96-107 *)
Definition in_sidecar (j : json) : option iaux :=
  strict ["name"; "description"; "cmd"; "entrypoint"; "run"; "image"; "registry"; "env"; "files"; "timeout"; "probe"] j (fun g =>
  let? a := d_str (g "name") in let? b := d_str (g "description") in let? c := d_arr d_string (g "cmd") in let? d := d_arr d_string (g "entrypoint") in
  let? e := d_str (g "run") in let? f := d_str (g "image") in let? h := d_ptr in_registry (g "registry") in let? i := d_map (g "env") in
  let? k := d_map (g "files") in let? l := d_str (g "timeout") in let? m := d_ptr in_probe (g "probe") in Some (mkIAux a b c d e f h i k l m)).
(** the zero value of input/task.go:8-36 *)
Definition zero_itask : itask :=
  mkITask "" "" [] [] "" "" None [] [] "" [] [] [] [] [] None None "" "" "" None None None "" [] "" 0.

Section Nested.
Variable dec : json -> option itask.
(** input/task.go:58-60 *)
Definition in_parallel (j : json) : option (iparT itask) := strict ["tasks"] j (fun g => let? a := d_arr dec (g "tasks") in Some (mkIPar a)).
(** input/task.go:51-56 *)
Definition in_each (j : json) : option (ieachT itask) := strict ["var"; "list"; "task"; "concurrency"] j (fun g =>
  let? a := d_str (g "var") in let? b := d_str (g "list") in let? c := d_struct zero_itask dec (g "task") in
  let? d := d_int (g "concurrency") in Some (mkIEach a b c d)).
(** input/task.go:38-49 *)
Definition in_subjob (j : json) : option (isubT itask) :=
  strict ["id"; "name"; "description"; "tasks"; "inputs"; "secrets"; "autoDelete"; "output"; "detached"; "webhooks"] j (fun g =>
  let? a := d_str (g "id") in let? b := d_str (g "name") in let? c := d_str (g "description") in let? d := d_slice dec (g "tasks") in
  let? e := d_map (g "inputs") in let? f := d_map (g "secrets") in let? h := d_ptr in_autodelete (g "autoDelete") in
  let? i := d_str (g "output") in let? k := d_bool (g "detached") in let? l := d_arr in_webhook (g "webhooks") in
  Some (mkISub a b c d e f h i k l)).
(** input/task.go:8-36 *)
Definition task_keys : list string :=
  ["name"; "description"; "cmd"; "entrypoint"; "run"; "image"; "registry"; "env"; "files"; "queue"; "pre"; "post"; "sidecars"; "mounts"; "networks";
   "retry"; "limits"; "timeout"; "var"; "if"; "parallel"; "each"; "subjob"; "gpus"; "tags"; "workdir"; "priority"].
Definition in_task1 (j : json) : option itask := strict task_keys j (fun g =>
  let? v1 := d_str (g "name") in let? v2 := d_str (g "description") in let? v3 := d_arr d_string (g "cmd") in
  let? v4 := d_arr d_string (g "entrypoint") in let? v5 := d_str (g "run") in let? v6 := d_str (g "image") in
  let? v7 := d_ptr in_registry (g "registry") in let? v8 := d_map (g "env") in let? v9 := d_map (g "files") in let? v10 := d_str (g "queue") in
  let? v11 := d_arr in_aux (g "pre") in let? v12 := d_arr in_aux (g "post") in let? v13 := d_arr in_sidecar (g "sidecars") in
  let? v14 := d_arr in_mount (g "mounts") in let? v15 := d_arr d_string (g "networks") in let? v16 := d_ptr in_retry (g "retry") in
  let? v17 := d_ptr in_limits (g "limits") in let? v18 := d_str (g "timeout") in let? v19 := d_str (g "var") in let? v20 := d_str (g "if") in
  let? v21 := d_ptr in_parallel (g "parallel") in let? v22 := d_ptr in_each (g "each") in let? v23 := d_ptr in_subjob (g "subjob") in
  let? v24 := d_str (g "gpus") in let? v25 := d_arr d_string (g "tags") in let? v26 := d_str (g "workdir") in let? v27 := d_int (g "priority") in
  Some (mkITask v1 v2 v3 v4 v5 v6 v7 v8 v9 v10 v11 v12 v13 v14 v15 v16 v17 v18 v19 v20 v21 v22 v23 v24 v25 v26 v27)).
End Nested.
(** any nesting, to a given depth *)
Fixpoint in_task (depth : nat) (j : json) : option itask :=
  match depth with O => None | S n => in_task1 (in_task n) j end.
(** input/job.go:46-52 *)
Definition in_defaults (j : json) : option idefaults := strict ["retry"; "limits"; "timeout"; "queue"; "priority"] j (fun g =>
  let? a := d_ptr in_retry (g "retry") in let? b := d_ptr in_limits (g "limits") in let? c := d_str (g "timeout") in
  let? d := d_str (g "queue") in let? e := d_int (g "priority") in Some (mkIDefaults a b c d e)).
(** input/job.go:69-72 *)
Definition in_perm (j : json) : option iperm := strict ["user"; "role"] j (fun g =>
  let? a := d_str (g "user") in let? b := d_str (g "role") in Some (mkIPerm a b)).
(** input/job.go:27-29 *)
Definition in_wait (j : json) : option string := strict ["timeout"] j (fun g => d_str (g "timeout")).
(** input/job.go:10-25 *)
Definition in_job (depth : nat) (j : json) : option ijob :=
  strict ["name"; "description"; "tags"; "tasks"; "inputs"; "secrets"; "output"; "defaults"; "webhooks"; "permissions"; "autoDelete"; "wait"] j (fun g =>
  let? v1 := d_str (g "name") in let? v2 := d_str (g "description") in let? v3 := d_arr d_string (g "tags") in
  let? v4 := d_arr (in_task depth) (g "tasks") in let? v5 := d_map (g "inputs") in let? v6 := d_map (g "secrets") in
  let? v7 := d_str (g "output") in let? v8 := d_ptr in_defaults (g "defaults") in let? v9 := d_arr in_webhook (g "webhooks") in
  let? v10 := d_arr in_perm (g "permissions") in let? v11 := d_ptr in_autodelete (g "autoDelete") in let? v12 := d_ptr in_wait (g "wait") in
  Some (mkIJob v1 v2 v3 v4 v5 v6 v7 v8 v9 v10 v11 v12)).
(** The permissions of a job: rows of their own (postgres.go:670-691 is 1342-1357 with another table, 815-836 is 1507-1524:
    [SchedRows.perm_row], [SchedRows.to_perm]).  [P]: the rows of the table. *)
Definition add_perms (users : list user) (roles : list role) (P : list SchedRows.prow) (j : job) : option (list SchedRows.prow) :=
  option_map (app P) (SchedRows.every (SchedRows.perm_row users roles (j_id j)) (j_permissions j)).
Definition job_perms (users : list user) (roles : list role) (P : list SchedRows.prow) (i : id) : option (list permission) :=
  SchedRows.every (SchedRows.to_perm users roles) (filter (fun p => N.eqb (SchedRows.pr_job p) i) P).

(** For the specification: no sub-job, at any depth, is given an id (it would be ignored). *)
Fixpoint no_subjob_id (i : itask) : bool :=
  match i_parallel i with Some p => forallb no_subjob_id (ip_tasks p) | None => true end
  && match i_each i with Some e => no_subjob_id (ie_task e) | None => true end
  && match i_subjob i with
     | Some s => String.eqb (is_id s) "" && match is_tasks s with Some l => forallb no_subjob_id l | None => true end
     | None => true
     end.
(** A document without some of its fields. *)
Definition without (ks : list string) (j : json) : json :=
  match j with JObj o => JObj (filter (fun p => negb (existsb (String.eqb (fst p)) ks)) o) | _ => j end.
(** The value of a field, the list or the text there. *)
Definition fld (j : json) (k : string) : json := match j with JObj o => match get o k with Some v => v | None => JNull end | _ => JNull end.
Definition list_of (j : json) : list json := match j with JArr l => l | _ => [] end.
Definition text_of (j : json) : string := match j with JStr s => s | _ => "" end.
(** A permission read back names the role that was sent or, where none was, the user. *)
Definition perm_kept (sent shown : json) : Prop :=
  if String.eqb (text_of (fld sent "role")) "" then text_of (fld (fld shown "user") "username") = text_of (fld sent "user")
  else text_of (fld (fld shown "role") "slug") = text_of (fld sent "role").
(* ------------------------------------------------------------------ *)
(** * Proofs *)
Definition ok (v : json) (w : option json) : Prop := blank v \/ exists v', w = Some v' /\ within v v'.
Definition agrees {A} (P : A -> bool) (d : json -> option A) (e : A -> json) : Prop :=
  forall v x, proper v = true -> d v = Some x -> P x = true -> within v (e x).
Definition any {A} (_ : A) : bool := true.

Lemma get_in o k v : distinct (map fst o) = true -> In (k, v) o -> get o k = Some v.
Proof.
  induction o as [|[k' v'] o IH]; cbn; intros D H; [destruct H|]. apply andb_prop in D as [D1 D2].
  destruct H as [H|H].
  - injection H as -> ->. now rewrite String.eqb_refl.
  - destruct (String.eqb_spec k' k) as [->|]; auto. exfalso. apply negb_true_iff in D1.
    assert (existsb (String.eqb k) (map fst o) = true) by (apply existsb_exists; exists k; split; [change k with (fst (k, v)); now apply in_map|apply String.eqb_refl]). congruence.
Qed.
Lemma in_compact l k v : In (k, Some v) l -> In (k, v) (compact l).
Proof.
  induction l as [|[k' [v'|]] l IH]; cbn; intro H; auto; destruct H as [H|H]; auto; [left; congruence|discriminate H].
Qed.
(** the shape of every struct *)
Lemma strict_obj {A} known f (d : json -> option A) l :
  (forall j, d j = strict known j f) -> forall v x, proper v = true -> d v = Some x ->
  (forall o, v = JObj o -> forall k w, In (k, w) o -> In k known -> get o k = Some w -> proper w = true -> f (get o) = Some x -> ok w (assocj l k) /\ In (k, assocj l k) l) ->
  within v (JObj (compact l)).
Proof.
  intros E v x Pv H K. rewrite E in H. destruct v; try discriminate H; [constructor|]. cbn [strict] in H.
  destruct (forallb (fun p => existsb (String.eqb (fst p)) known) l0) eqn:F; [|discriminate H].
  cbn [proper] in Pv. apply andb_prop in Pv as [D Pv]. rewrite forallb_forall in Pv, F.
  constructor. intros k w Hin. specialize (F (k, w) Hin). cbn [fst] in F. apply existsb_exists in F as (k' & Hk & Ek). apply String.eqb_eq in Ek. subst k'.
  destruct (K l0 eq_refl k w Hin Hk (get_in _ _ _ D Hin) (Pv (k, w) Hin) H) as [[B|(v' & E' & W)] M]; [left; exact B|].
  right. exists v'. split; [|exact W]. apply in_compact. now rewrite <- E'.
Qed.
Lemma ag_str v x : d_str (Some v) = Some x -> ok v (o_str x).
Proof.
  destruct v; try discriminate; intro H; [left; constructor|]. injection H as ->. unfold o_str. destruct (String.eqb_spec x "") as [->|]; [left; constructor|].
  right. eexists. split; [reflexivity|constructor].
Qed.
Lemma ag_int v x : d_int (Some v) = Some x -> ok v (o_int x).
Proof.
  destruct v; try discriminate; intro H; [left; constructor|]. injection H as ->. unfold o_int. destruct (Z.eqb_spec x 0) as [->|]; [left; constructor|].
  right. eexists. split; [reflexivity|constructor].
Qed.
Lemma ag_bool v x : d_bool (Some v) = Some x -> ok v (o_bool x).
Proof.
  destruct v; try discriminate; intro H; [left; constructor|]. injection H as ->. destruct x; [|left; constructor].
  right. eexists. split; [reflexivity|constructor].
Qed.
Lemma pairs_in l : forall m, d_pairs l = Some m -> forall k v, In (k, v) l -> exists s, d_str (Some v) = Some s /\ In (k, JStr s) (map (fun p : string * string => (fst p, JStr (snd p))) m).
Proof.
  induction l as [|[k v] l IH]; cbn [d_pairs]; intros m H; [intros k v []|].
  destruct (d_str (Some v)) as [s|] eqn:E; [|discriminate]. destruct (d_pairs l) as [r|]; [|discriminate]. injection H as <-.
  intros k' v' [K|K].
  - injection K as <- <-. exists s. split; [exact E|left; reflexivity].
  - destruct (IH r eq_refl k' v' K) as (s' & S1 & S2). exists s'. split; [exact S1|right; exact S2].
Qed.
Lemma ag_map v x : d_map (Some v) = Some x -> ok v (o_map x).
Proof.
  destruct v; try discriminate; intro H; [left; constructor|]. cbn [d_map] in H. destruct l as [|p l]; [left; constructor|]. right.
  pose proof (pairs_in _ _ H) as P. destruct x as [|q x]; [destruct p as [k v]; destruct (P k v (or_introl eq_refl)) as (s & _ & [])|].
  eexists. split; [reflexivity|]. constructor. intros k v Hin. right. destruct (P k v Hin) as (s & S1 & S2). exists (JStr s). split; [exact S2|].
  destruct v; try discriminate S1; [constructor|]. injection S1 as ->. constructor.
Qed.
Lemma ag_all {A} P (d : json -> option A) e l : agrees P d e -> forall x, forallb proper l = true -> d_all d l = Some x -> forallb P x = true -> Forall2 within l (map e x).
Proof.
  intro HA. induction l as [|v l IH]; cbn [d_all forallb]; intros x Pr H HP; [injection H as <-; constructor|].
  destruct (d v) as [a|] eqn:E; [|discriminate]. destruct (d_all d l) as [r|]; [|discriminate]. injection H as <-.
  cbn [forallb] in HP. apply andb_prop in HP as [HP1 HP2]. apply andb_prop in Pr as [Pr1 Pr2]. constructor; [exact (HA v a Pr1 E HP1)|exact (IH r Pr2 eq_refl HP2)].
Qed.
Lemma all_any {A} (l : list A) : forallb any l = true.
Proof. induction l; auto. Qed.
Lemma ag_arr {A} P (d : json -> option A) e v x : agrees P d e -> proper v = true -> d_arr d (Some v) = Some x -> forallb P x = true -> ok v (o_arr e x).
Proof.
  intros HA Pv H HP. destruct v; try discriminate; [left; constructor|]. cbn [d_arr] in H. pose proof (ag_all P d e l HA x Pv H HP) as F.
  destruct x as [|a x]; [inversion F; subst; left; constructor|]. right. eexists. split; [reflexivity|]. now constructor.
Qed.
Lemma ag_arr_map {A B} P (d : json -> option A) (f : A -> B) e v x : agrees P d (fun a => e (f a)) -> proper v = true -> d_arr d (Some v) = Some x -> forallb P x = true -> ok v (o_arr e (map f x)).
Proof. intros HA Pv H HP. destruct (ag_arr P d _ v x HA Pv H HP) as [B'|(v' & E & W)]; [left; exact B'|right; exists v'; split; [|exact W]]. destruct x; [discriminate E|]. cbn in *. now rewrite map_map. Qed.
Lemma ag_ptr {A} P (d : json -> option A) e v x : agrees P d e -> proper v = true -> d_ptr d (Some v) = Some x -> match x with Some y => P y = true | None => True end -> ok v (o_ptr e x).
Proof.
  intros HA Pv H HP. unfold d_ptr in H. assert (blank v \/ exists y, d v = Some y /\ x = Some y) as [B|(y & E & ->)].
  { destruct v; try (left; constructor; fail); right; (destruct (d _) as [y|]; [|discriminate H]); exists y; split; congruence. }
  - left. exact B.
  - right. eexists. split; [reflexivity|]. exact (HA v y Pv E HP).
Qed.
Lemma ag_string : agrees any d_string j_string.
Proof. intros v x _ H _. unfold d_string in H. destruct v; try discriminate H; [constructor|]. injection H as ->. constructor. Qed.
Lemma ag_strs v x : proper v = true -> d_arr d_string (Some v) = Some x -> ok v (o_arr j_string x).
Proof. intros Pv H. exact (ag_arr any _ _ v x ag_string Pv H (all_any x)). Qed.

(** the fields of a task (Wire.v) as a list *)
Definition task_list (t : task) : list (string * option json) :=
    [("id", o_id (t_id t)); ("jobId", o_id (t_job t)); ("parentId", o_id (t_parent t)); ("position", o_int (t_position t));
     ("name", o_str (t_name t)); ("description", o_str (t_description t)); ("state", Some (JStr (tstate_name (t_state t))));
     ("createdAt", o_time (t_created t)); ("scheduledAt", o_time (t_scheduled t)); ("startedAt", o_time (t_started t));
     ("completedAt", o_time (t_completed t)); ("failedAt", o_time (t_failed t));
     ("cmd", o_arr j_string (t_cmd t)); ("entrypoint", o_arr j_string (t_entrypoint t)); ("run", o_str (t_run t)); ("image", o_str (t_image t));
     ("registry", o_ptr enc_registry (t_registry t)); ("env", o_map (t_env t)); ("files", o_map (t_files t)); ("queue", o_str (t_queue t));
     ("redelivered", o_int (t_redelivered t)); ("error", o_str (t_error t));
     ("pre", o_arr enc_task (t_pre t)); ("post", o_arr enc_task (t_post t)); ("sidecars", o_arr enc_task (t_sidecars t));
     ("mounts", o_arr enc_mount (t_mounts t)); ("networks", o_arr j_string (t_networks t)); ("nodeId", o_id (t_node t));
     ("retry", o_ptr enc_retry (t_retry t)); ("limits", o_ptr enc_limits (t_limits t)); ("timeout", o_str (t_timeout t));
     ("result", o_str (t_result t)); ("var", o_str (t_var t)); ("if", o_str (t_if t));
     ("parallel", match t_parallel t with
                  | None => None
                  | Some p => Some (JObj (compact [("tasks", o_arr enc_task (p_tasks p)); ("completions", o_int (p_completions p))])) end);
     ("each", match t_each t with
              | None => None
              | Some e => Some (JObj (compact [("var", o_str (e_var e)); ("list", o_str (e_list e)); ("task", Some (enc_task (e_task e)));
                    ("size", o_int (e_size e)); ("completions", o_int (e_completions e)); ("concurrency", o_int (e_concurrency e)); ("index", o_int (e_index e))])) end);
     ("subjob", match t_subjob t with
                | None => None
                | Some s => Some (JObj (compact [("id", o_id (s_id s)); ("name", o_str (s_name s)); ("description", o_str (s_description s));
                    ("tasks", o_arr enc_task (s_tasks s)); ("inputs", o_map (s_inputs s)); ("secrets", o_map (s_secrets s));
                    ("autoDelete", o_ptr enc_autodelete (s_autodelete s)); ("output", o_str (s_output s)); ("detached", o_bool (s_detached s));
                    ("webhooks", o_arr enc_webhook (s_webhooks s))])) end);
     ("gpus", o_str (t_gpus t)); ("tags", o_arr j_string (t_tags t)); ("workdir", o_str (t_workdir t)); ("priority", o_int (t_priority t));
     ("progress", o_int (t_progress t)); ("probe", o_ptr enc_probe (t_probe t))].
Lemma enc_task_list t : enc_task t = JObj (compact (task_list t)).
Proof. destruct t. reflexivity. Qed.
Lemma assocj_in l k : existsb (String.eqb k) (map fst l) = true -> In (k, assocj l k) l.
Proof.
  induction l as [|[k' v] l IH]; cbn; [discriminate|]. destruct (String.eqb_spec k k') as [->|N].
  - intros _. left. now rewrite String.eqb_refl.
  - intro H. right. destruct (String.eqb_spec k' k); [congruence|]. apply IH. exact H.
Qed.
Ltac opens H := repeat match type of H with match ?e with Some _ => _ | None => None end = Some _ => let E := fresh "E" in destruct e eqn:E; [|discriminate H] end.
Ltac inlist := repeat first [left; reflexivity | right].
(* one case for each known key *)
Ltac keys K G :=
  repeat (destruct K as [<-|K]; [try rewrite G in *|]); [..|destruct K].
Ltac start_struct :=
  let v := fresh "v" in let x := fresh "x" in let Pv := fresh "Pv" in let H := fresh "H" in
  intros v x Pv H _; eapply strict_obj; [intro; reflexivity|exact Pv|exact H|];
  intros o Ev k w Hin K G Pw H'; clear Ev Pv H v; rename H' into H; cbv beta in H; opens H; injection H as <-;
  cbn [In] in K; keys K G; (split; [|apply assocj_in; reflexivity]);
  cbn [assocj String.eqb Ascii.eqb Bool.eqb].
Ltac given := match goal with |- ?d (Some ?w) = _ => match goal with E : d (Some w) = _ |- _ => exact E end end.
Ltac basic := match goal with
  | |- ok _ (o_str _) => apply ag_str; given | |- ok _ (o_int _) => apply ag_int; given | |- ok _ (o_bool _) => apply ag_bool; given
  | |- ok _ (o_map _) => apply ag_map; given | |- ok _ (o_arr j_string _) => apply ag_strs; [assumption|given] end.

Lemma ag_limits : agrees any in_limits enc_limits.
Proof. start_struct; basic. Qed.
Lemma ag_registry : agrees any in_registry enc_registry.
Proof. start_struct; basic. Qed.
Lemma ag_probe : agrees any in_probe enc_probe.
Proof. start_struct; basic. Qed.
Lemma ag_autodelete : agrees any in_autodelete enc_autodelete.
Proof. start_struct; basic. Qed.
Lemma ag_webhook : agrees any in_webhook enc_webhook.
Proof. start_struct; basic. Qed.
Lemma ag_mount : agrees any in_mount (fun m => enc_mount (to_mount m)).
Proof. start_struct; basic. Qed.
Lemma ag_retry : agrees any in_retry (fun n => enc_retry (mkRetry n 0)).
Proof.
  intros v x Pv H _. eapply strict_obj; [intro; reflexivity|exact Pv|exact H|].
  intros o Ev k w Hin K G Pw H'. cbv beta in H'. cbn [In] in K. keys K G. split; [|inlist]. cbn [assocj String.eqb Ascii.eqb Bool.eqb]. apply ag_int; assumption.
Qed.
Lemma ag_regptr v x : proper v = true -> d_ptr in_registry (Some v) = Some x -> ok v (o_ptr enc_registry x).
Proof. intros Pv H. apply (ag_ptr any in_registry); auto; [exact ag_registry|destruct x; exact eq_refl || exact I]. Qed.
Ltac start_task L :=
  let v := fresh "v" in let x := fresh "x" in let Pv := fresh "Pv" in let H := fresh "H" in
  intros v x Pv H HP; rewrite enc_task_list; eapply strict_obj; [intro; reflexivity|exact Pv|exact H|];
  intros o Ev k w Hin K G Pw H'; clear Ev Pv H v; rename H' into H; cbv beta in H; opens H; injection H as <-;
  cbn [In task_keys] in K; keys K G; (split; [|apply assocj_in; reflexivity]);
  cbn [assocj task_list String.eqb Ascii.eqb Bool.eqb].
Ltac regptr := match goal with |- ok _ (o_ptr enc_registry _) => apply ag_regptr; [assumption|given] end.
Lemma ag_aux : agrees any in_aux (fun a => enc_task (to_aux a)).
Proof. start_task I; first [basic | regptr]. Qed.
Lemma ag_probeptr v x : proper v = true -> d_ptr in_probe (Some v) = Some x -> ok v (o_ptr enc_probe x).
Proof. intros Pv H. apply (ag_ptr any in_probe); auto; [exact ag_probe|destruct x; exact eq_refl || exact I]. Qed.
Ltac probeptr := match goal with |- ok _ (o_ptr enc_probe _) => apply ag_probeptr; [assumption|given] end.
Lemma ag_sidecar : agrees any in_sidecar (fun a => enc_task (to_aux a)).
Proof. start_task I; first [basic | regptr | probeptr]. Qed.

(** the objects inside a task *)
Lemma ag_opt {A} P (d : json -> option A) e v x : agrees P d e -> proper v = true -> d_ptr d (Some v) = Some x -> match x with Some y => P y = true | None => True end ->
  ok v (match x with Some y => Some (e y) | None => None end).
Proof. exact (ag_ptr P d e v x). Qed.
Section NestedProofs.
Variable dec : json -> option itask.
Hypothesis HD : agrees no_subjob_id dec (fun i => enc_task (Validate.to_task i)).
Definition par_ok (p : iparT itask) : bool := forallb no_subjob_id (ip_tasks p).
Definition each_ok (e : ieachT itask) : bool := no_subjob_id (ie_task e).
Definition sub_ok (s : isubT itask) : bool := String.eqb (is_id s) "" && match is_tasks s with Some l => forallb no_subjob_id l | None => true end.
Lemma ag_parallel : agrees par_ok (in_parallel dec) (fun p => JObj (compact [("tasks", o_arr enc_task (map Validate.to_task (ip_tasks p))); ("completions", o_int 0)])).
Proof.
  intros v x Pv H HP; eapply strict_obj; [intro; reflexivity|exact Pv|exact H|].
  intros o Ev k w Hin K G Pw H'; clear Ev Pv H v; rename H' into H; cbv beta in H; opens H; injection H as <-.
  cbn [In] in K; keys K G; (split; [|apply assocj_in; reflexivity]). cbn [assocj String.eqb Ascii.eqb Bool.eqb].
  eapply (ag_arr_map no_subjob_id dec Validate.to_task enc_task); [exact HD|exact Pw|given|exact HP].
Qed.
Lemma ag_each : agrees each_ok (in_each dec) (fun e => JObj (compact [("var", o_str (ie_var e)); ("list", o_str (ie_list e)); ("task", Some (enc_task (Validate.to_task (ie_task e))));
   ("size", o_int 0); ("completions", o_int 0); ("concurrency", o_int (ie_concurrency e)); ("index", o_int 0)])).
Proof.
  intros v x Pv H HP; eapply strict_obj; [intro; reflexivity|exact Pv|exact H|].
  intros o Ev k w Hin K G Pw H'; clear Ev Pv H v; rename H' into H; cbv beta in H; opens H; injection H as <-.
  cbn [In] in K; keys K G; (split; [|apply assocj_in; reflexivity]); cbn [assocj String.eqb Ascii.eqb Bool.eqb]; try basic.
  match goal with E : d_struct _ _ _ = Some ?y |- _ => assert (blank w \/ dec w = Some y) as [B|B] by (destruct w; first [right; exact E | left; constructor]) end.
  - left; exact B.
  - right. eexists. split; [reflexivity|]. exact (HD w _ Pw B HP).
Qed.
Lemma ag_hooks v x : proper v = true -> d_arr in_webhook (Some v) = Some x -> ok v (o_arr enc_webhook x).
Proof. intros Pv H. exact (ag_arr any _ _ v x ag_webhook Pv H (all_any x)). Qed.
Lemma ag_delptr v x : proper v = true -> d_ptr in_autodelete (Some v) = Some x -> ok v (o_ptr enc_autodelete x).
Proof. intros Pv H. apply (ag_ptr any in_autodelete); auto; [exact ag_autodelete|destruct x; exact eq_refl || exact I]. Qed.
Lemma ag_subjob : agrees sub_ok (in_subjob dec) (fun s => JObj (compact [("id", o_id noid); ("name", o_str (is_name s)); ("description", o_str (is_description s));
   ("tasks", o_arr enc_task (match is_tasks s with Some l => map Validate.to_task l | None => [] end)); ("inputs", o_map (is_inputs s)); ("secrets", o_map (is_secrets s));
   ("autoDelete", o_ptr enc_autodelete (is_autodelete s)); ("output", o_str (is_output s)); ("detached", o_bool (is_detached s));
   ("webhooks", o_arr enc_webhook (is_webhooks s))])).
Proof.
  intros v x Pv H HP; eapply strict_obj; [intro; reflexivity|exact Pv|exact H|].
  intros o Ev k w Hin K G Pw H'; clear Ev Pv H v; rename H' into H; cbv beta in H; opens H; injection H as <-.
  apply andb_prop in HP as [HP1 HP2]. change (is_id _) with s in HP1 at 1. apply String.eqb_eq in HP1.
  cbn [In] in K; keys K G; (split; [|apply assocj_in; reflexivity]); cbn [assocj String.eqb Ascii.eqb Bool.eqb]; try basic.
  - subst s. match goal with E : d_str (Some w) = Some "" |- _ => destruct w; try discriminate E; [left; constructor|injection E as ->; left; constructor] end.
  - cbn [is_tasks] in *. match goal with E : d_slice _ _ = Some ?y |- _ => rename E into ET; set (ts := y) in * end.
    destruct w; try discriminate ET; [left; constructor|]. unfold d_slice in ET. destruct (d_arr dec (Some _)) as [r|] eqn:EA in ET; [|discriminate ET].
    injection ET as ET. rewrite <- ET in *. subst ts. eapply (ag_arr_map no_subjob_id dec Validate.to_task enc_task); [exact HD|exact Pw|exact EA|exact HP2].
  - cbn [is_autodelete]. apply ag_delptr; [exact Pw|given].
  - cbn [is_webhooks]. apply ag_hooks; [exact Pw|given].
Qed.
End NestedProofs.
Lemma no_sub i : no_subjob_id i = true ->
  match i_parallel i with Some y => par_ok y = true | None => True end /\ match i_each i with Some y => each_ok y = true | None => True end /\
  match i_subjob i with Some y => sub_ok y = true | None => True end.
Proof.
  destruct i as [a1 a2 a3 a4 a5 a6 a7 a8 a9 a10 a11 a12 a13 a14 a15 a16 a17 a18 a19 a20 p e b a24 a25 a26 a27]. intro H. cbn in H.
  apply andb_prop in H as [H H3]. apply andb_prop in H as [H1 H2]. cbn [Validate.i_parallel Validate.i_each Validate.i_subjob].
  split; [|split].
  - destruct p; [exact H1|exact I].
  - destruct e; [exact H2|exact I].
  - destruct b; [exact H3|exact I].
Qed.
Lemma ag_retryptr v x : proper v = true -> d_ptr in_retry (Some v) = Some x -> ok v (o_ptr enc_retry (match x with Some n => Some (mkRetry n 0) | None => None end)).
Proof. intros Pv H. pose proof (ag_ptr any in_retry _ v x ag_retry Pv H) as K. destruct x; apply K; exact eq_refl || exact I. Qed.
Lemma ag_limptr v x : proper v = true -> d_ptr in_limits (Some v) = Some x -> ok v (o_ptr enc_limits x).
Proof. intros Pv H. apply (ag_ptr any in_limits); auto; [exact ag_limits|destruct x; exact eq_refl || exact I]. Qed.
Lemma ag_task1 dec : agrees no_subjob_id dec (fun i => enc_task (Validate.to_task i)) -> agrees no_subjob_id (in_task1 dec) (fun i => enc_task (Validate.to_task i)).
Proof.
  intro HD. start_task I; apply no_sub in HP as (HP1 & HP2 & HP3); cbn [i_parallel i_each i_subjob] in HP1, HP2, HP3; try basic; try regptr.
  - eapply (ag_arr_map any in_aux to_aux enc_task); [exact ag_aux|exact Pw|given|apply all_any].
  - eapply (ag_arr_map any in_aux to_aux enc_task); [exact ag_aux|exact Pw|given|apply all_any].
  - eapply (ag_arr_map any in_sidecar to_aux enc_task); [exact ag_sidecar|exact Pw|given|apply all_any].
  - eapply (ag_arr_map any in_mount to_mount enc_mount); [exact ag_mount|exact Pw|given|apply all_any].
  - eapply (ag_retryptr w); [exact Pw|given].
  - eapply (ag_limptr w); [exact Pw|given].
  - assert (E' : d_ptr (in_parallel dec) (Some w) = Some o3) by given. pose proof (ag_opt _ _ _ w o3 (ag_parallel dec HD) Pw E' HP1) as K. destruct o3; exact K.
  - assert (E' : d_ptr (in_each dec) (Some w) = Some o4) by given. pose proof (ag_opt _ _ _ w o4 (ag_each dec HD) Pw E' HP2) as K. destruct o4; exact K.
  - assert (E' : d_ptr (in_subjob dec) (Some w) = Some o5) by given. pose proof (ag_opt _ _ _ w o5 (ag_subjob dec HD) Pw E' HP3) as K. destruct o5; exact K.
Qed.
Lemma ag_task n : agrees no_subjob_id (in_task n) (fun i => enc_task (Validate.to_task i)).
Proof. induction n as [|n IH]; [intros v x _ H; discriminate H|exact (ag_task1 _ IH)]. Qed.
Lemma ag_perms v x : d_arr in_perm (Some v) = Some x -> forall l, v = JArr l -> Forall2 (fun a p => in_perm a = Some p) l x.
Proof.
  intros H l ->. cbn [d_arr] in H. revert x H. induction l as [|a l IH]; cbn [d_all]; intros x H; [injection H as <-; constructor|].
  destruct (in_perm a) eqn:E; [|discriminate H]. destruct (d_all in_perm l); [|discriminate H]. injection H as <-. constructor; auto.
Qed.
Lemma ag_defaults : agrees any in_defaults (fun d => enc_defaults (to_defaults d)).
Proof. start_struct; try basic; [eapply (ag_retryptr w)|eapply (ag_limptr w)]; first [exact Pw|given]. Qed.
Definition job_list (j : job) : list (string * option json) :=
    [("id", o_id (j_id j)); ("parentId", o_id (j_parent j)); ("name", o_str (j_name j)); ("description", o_str (j_description j));
     ("tags", o_arr j_string (j_tags j)); ("state", Some (JStr (jstate_name (j_state j)))); ("createdAt", Some (JTime (j_created j)));
     ("createdBy", o_ptr enc_user (j_createdby j)); ("startedAt", o_time (j_started j)); ("completedAt", o_time (j_completed j));
     ("failedAt", o_time (j_failed j)); ("tasks", a_arr enc_task (j_tasks j)); ("execution", a_arr enc_task (j_execution j));
     ("position", Some (JNum (j_position j))); ("inputs", o_map (j_inputs j)); ("context", Some (enc_ctx (j_context j)));
     ("taskCount", o_int (j_taskcount j)); ("output", o_str (j_output j)); ("result", o_str (j_result j)); ("error", o_str (j_error j));
     ("defaults", o_ptr enc_defaults (j_defaults j)); ("webhooks", o_arr enc_webhook (j_webhooks j));
     ("permissions", o_arr enc_permission (j_permissions j)); ("autoDelete", o_ptr enc_autodelete (j_autodelete j));
     ("deleteAt", o_time (j_deleteat j)); ("secrets", o_map (j_secrets j)); ("progress", o_int (j_progress j));
     ("schedule", o_ptr enc_schedule (j_schedule j))].
Lemma enc_job_list j : enc_job j = JObj (compact (job_list j)).
Proof. reflexivity. Qed.
Lemma strict_rest {A} ks known f l : forall v (x : A), proper v = true -> strict known v f = Some x ->
  (forall o, v = JObj o -> forall k w, In (k, w) o -> In k known -> existsb (String.eqb k) ks = false -> get o k = Some w -> proper w = true -> f (get o) = Some x ->
     ok w (assocj l k) /\ In (k, assocj l k) l) ->
  within (without ks v) (JObj (compact l)).
Proof.
  intros v x Pv H K. destruct v; try discriminate H; [constructor|]. cbn [strict] in H.
  destruct (forallb (fun p => existsb (String.eqb (fst p)) known) l0) eqn:F; [|discriminate H].
  cbn [proper] in Pv. apply andb_prop in Pv as [D Pv]. rewrite forallb_forall in Pv, F.
  constructor. intros k w Hin. apply filter_In in Hin as [Hin Hk]. apply negb_true_iff in Hk. cbn [fst] in Hk.
  specialize (F (k, w) Hin). cbn [fst] in F. apply existsb_exists in F as (k' & Hk' & Ek). apply String.eqb_eq in Ek. subst k'.
  destruct (K l0 eq_refl k w Hin Hk' Hk (get_in _ _ _ D Hin) (Pv (k, w) Hin) H) as [[B|(v' & E' & W)] M]; [left; exact B|].
  right. exists v'. split; [|exact W]. apply in_compact. now rewrite <- E'.
Qed.
Definition read_job (i : id) (t : time) (cj : smap) (by_ : option user) (ij : ijob) (e : list task) (ps : list permission) : job :=
  (stored_job (new_job i t (to_def cj by_ ij))) <| j_execution := e |> <| j_permissions := ps |>.
Lemma ag_job depth doc ij i t cj by_ e ps : proper doc = true -> in_job depth doc = Some ij -> forallb no_subjob_id (ij_tasks ij) = true ->
  within (without ["wait"; "permissions"] doc) (enc_job (read_job i t cj by_ ij e ps)).
Proof.
  intros Pv H HP. rewrite enc_job_list. unfold in_job in H. eapply strict_rest; [exact Pv|exact H|].
  intros o Ev k w Hin K Hk G Pw H'; clear Ev Pv H; rename H' into H; cbv beta in H; opens H; injection H as <-.
  cbn [In] in K; keys K G; try discriminate Hk; (split; [|apply assocj_in; reflexivity]);
  cbn [assocj job_list String.eqb Ascii.eqb Bool.eqb]; try basic.
  - change (j_tasks (read_job i t cj by_ _ e ps)) with (map bare (map Validate.to_task l0)). rewrite bare_arr.
    match goal with |- ok w (a_arr enc_task (map _ ?l)) => assert (E' : d_arr (in_task depth) (Some w) = Some l) by given; set (ts := l) in * end.
    destruct w; try discriminate E'; [left; constructor|]. pose proof (ag_all no_subjob_id _ _ _ (ag_task depth) ts Pw E' HP) as F.
    destruct ts as [|a ts]; [inversion F; subst; left; constructor|]. right. eexists. split; [reflexivity|]. constructor.
    rewrite map_map. exact F.
  - match goal with |- ok w (o_ptr enc_defaults _) => idtac end.
    match goal with E : d_ptr in_defaults (Some w) = Some ?y |- _ => pose proof (ag_ptr any in_defaults _ w y ag_defaults Pw E) as K; destruct y; apply K; exact eq_refl || exact I end.
  - eapply (ag_hooks w); [exact Pw|given].
  - eapply (ag_delptr w); [exact Pw|given].
Qed.

(** what the permissions of two documents say *)
Definition same_named (p q : permission) : Prop :=
  match pm_role p with
  | Some r => exists r', pm_role q = Some r' /\ ro_slug r' = ro_slug r
  | None => match pm_user p with Some u => pm_role q = None /\ exists u', pm_user q = Some u' /\ u_username u' = u_username u | None => True end
  end.
Lemma fld_compact l k : distinct (map fst l) = true -> fld (JObj (compact l)) k = match assocj l k with Some v => v | None => JNull end.
Proof. intro D. cbn [fld]. now rewrite get_compact. Qed.
Lemma text_o_str s : text_of (match o_str s with Some v => v | None => JNull end) = s.
Proof. unfold o_str. destruct (String.eqb_spec s "") as [->|]; reflexivity. Qed.
Lemma shown_perms r : list_of (fld (enc_job r) "permissions") = map enc_permission (j_permissions r).
Proof. rewrite enc_job_list, fld_compact by reflexivity. cbn [assocj job_list String.eqb Ascii.eqb Bool.eqb]. destruct (j_permissions r); reflexivity. Qed.
Lemma sent_decoded depth doc ij : in_job depth doc = Some ij -> Forall2 (fun a p => in_perm a = Some p) (list_of (fld doc "permissions")) (ij_permissions ij).
Proof.
  intro H. unfold in_job in H. destruct doc; try discriminate H.
  - cbv beta in H. cbn [strict] in H. opens H. injection H as <-. cbn in *. match goal with E : Some [] = Some l2 |- _ => idtac | _ => idtac end. constructor || idtac.
    all: repeat match goal with E : Some _ = Some _ |- _ => injection E as E; try subst end; constructor.
  - cbn [strict] in H. destruct (forallb _ _); [|discriminate H]. cbv beta in H. opens H. injection H as <-. cbn [ij_permissions fld].
    match goal with E : d_arr in_perm (get l "permissions") = Some ?y |- _ => rename E into EP end.
    destruct (get l "permissions") as [w|].
    + destruct w; try discriminate EP; cbn [list_of].
      * injection EP as <-. constructor.
      * exact (ag_perms _ _ EP _ eq_refl).
    + injection EP as <-. constructor.
Qed.
Lemma in_perm_text a p : in_perm a = Some p -> text_of (fld a "role") = ip_role p /\ text_of (fld a "user") = ip_user p.
Proof.
  unfold in_perm. intro H. destruct a; try discriminate H; [cbn in H; injection H as <-; split; reflexivity|]. cbn [strict] in H. destruct (forallb _ _); [|discriminate H].
  opens H. injection H as <-. cbn [fld ip_role ip_user]. split.
  - destruct (get l "role") as [w|]; [|cbn in E0; now injection E0 as <-]. destruct w; try discriminate E0; cbn in E0; now injection E0 as <-.
  - destruct (get l "user") as [w|]; [|cbn in E; now injection E as <-]. destruct w; try discriminate E; cbn in E; now injection E as <-.
Qed.
Lemma perm_read a p q : in_perm a = Some p -> same_named (Validate.to_perm p) q -> perm_kept a (enc_permission q).
Proof.
  intros H S. apply in_perm_text in H as [H1 H2]. unfold perm_kept. rewrite H1, H2. unfold Validate.to_perm in S.
  unfold enc_permission. rewrite !fld_compact by reflexivity. cbn [assocj String.eqb Ascii.eqb Bool.eqb].
  destruct (String.eqb_spec (ip_role p) "") as [E|E].
  - cbn in S. destruct S as (_ & u' & -> & Eu). cbn [o_ptr option_map]. unfold enc_user. rewrite fld_compact by reflexivity. cbn [assocj String.eqb Ascii.eqb Bool.eqb].
    now rewrite text_o_str.
  - cbn in S. destruct S as (r' & -> & Er). cbn [o_ptr option_map]. unfold enc_role. rewrite fld_compact by reflexivity. cbn [assocj String.eqb Ascii.eqb Bool.eqb].
    now rewrite text_o_str.
Qed.
Lemma got_perms unshut who n exec perms T i r : get_job unshut who n exec perms T i = Some r -> j_permissions r = perms.
Proof.
  unfold get_job. destruct (find _ T) as [row|]; [|discriminate]. unfold to_job. intro H. opens H. injection H as <-. reflexivity.
Qed.

(* ------------------------------------------------------------------ *)
(** * C100 *)
Section Theorems.
Variable shut : smap -> smap.
Variable unshut : smap -> option smap.
Hypothesis shut_nil : shut [] = [].
Hypothesis unshut_shut : forall m, unshut (shut m) = Some m.
Hypothesis shut_keeps : forall m, m <> [] -> shut m <> [].
Variable who : id -> option user.

(** A document that is accepted as a job and stored is in the job read back: every field that says something, at every depth, says the same
    in the same place — except how long to wait, which is not kept, and the permissions (below). *)
Theorem C100_read_back : forall ids scheds T T' js depth doc ij i t cj u,
  represents_jobs shut who T js -> who (u_id u) = Some u ->
  proper doc = true -> in_job depth doc = Some ij -> forallb no_subjob_id (ij_tasks ij) = true ->
  create_job shut ids scheds T (new_job i t (to_def cj (Some u) ij)) = Some T' ->
  exists n0, forall n, (n0 <= n)%nat -> forall exec perms, exists r,
    get_job unshut who n exec perms T' i = Some r /\ within (without ["wait"; "permissions"] doc) (enc_job r).
Proof.
  intros ids scheds T T' js depth doc ij i t cj u R W Pv H HP C. set (j := new_job i t (to_def cj (Some u) ij)) in *.
  destruct (C66_job_created shut who ids scheds T js j u R eq_refl W) as [Hiff HT].
  assert (Hn : ~ In i (map j_id js)) by (apply Hiff; exists T'; exact C).
  destruct (C66_job_read shut unshut shut_nil unshut_shut shut_keeps who T' _ (HT T' C)) as [n0 N0]. exists n0. intros n L exec perms.
  rewrite (N0 n L exec perms i).
  assert (F : find (fun x => N.eqb (j_id x) i) (js ++ [stored_job j]) = Some (stored_job j)).
  { clear - Hn. induction js as [|x js IH]; cbn [app find].
    - change (j_id (stored_job j)) with i. now rewrite N.eqb_refl.
    - destruct (N.eqb_spec (j_id x) i) as [E|]; [destruct Hn; left; exact E|]. apply IH. intro K. apply Hn. right. exact K. }
  rewrite F. eexists. split; [reflexivity|]. exact (ag_job depth doc ij i t cj (Some u) exec perms Pv H HP).
Qed.

(** The permissions: each comes back with the role it named or, where it named none, the user. *)
Theorem C100_permissions : forall users roles P P' depth doc ij i t cj by_,
  NoDup (map u_id users) -> NoDup (map ro_id roles) -> (forall p, In p P -> SchedRows.pr_job p <> i) ->
  proper doc = true -> in_job depth doc = Some ij ->
  add_perms users roles P (new_job i t (to_def cj by_ ij)) = Some P' ->
  exists perms, job_perms users roles P' i = Some perms /\
    forall n exec T r, get_job unshut who n exec perms T i = Some r ->
      Forall2 perm_kept (list_of (fld doc "permissions")) (list_of (fld (enc_job r) "permissions")).
Proof.
  intros users roles P P' depth doc ij i t cj by_ NU NR Fr Pv H A. unfold add_perms in A.
  change (j_permissions (new_job i t (to_def cj by_ ij))) with (map Validate.to_perm (ij_permissions ij)) in A.
  change (j_id (new_job i t (to_def cj by_ ij))) with i in A.
  destruct (SchedRows.every _ _) as [R|] eqn:ER; [|discriminate A]. cbn [option_map] in A. injection A as <-. apply SchedRows.every_inv in ER.
  assert (EF : filter (fun p => N.eqb (SchedRows.pr_job p) i) (P ++ R) = R).
  { rewrite filter_app. replace (filter _ P) with (@nil SchedRows.prow).
    - cbn [app]. clear - ER. induction ER as [|p r ps rs E _ IH]; [reflexivity|]. cbn [filter]. rewrite IH.
      replace (N.eqb (SchedRows.pr_job r) i) with true; [reflexivity|]. symmetry. apply N.eqb_eq. unfold SchedRows.perm_row in E.
      destruct (pm_role p); [destruct (SchedRows.slug_role _ _)|destruct (pm_user p); [destruct (SchedRows.named_user _ _)|]]; try discriminate E; now injection E as <-.
    - symmetry. clear - Fr. induction P as [|p P IH]; [reflexivity|]. cbn [filter]. destruct (N.eqb_spec (SchedRows.pr_job p) i) as [E|].
      + destruct (Fr p (or_introl eq_refl) E).
      + apply IH. intros q Hq. apply Fr. now right. }
  assert (exists perms, SchedRows.every (SchedRows.to_perm users roles) R = Some perms /\ Forall2 same_named (map Validate.to_perm (ij_permissions ij)) perms) as (perms & EP & SN).
  { clear - ER NU NR. induction ER as [|p r ps rs E _ (perms & IH1 & IH2)]; [exists []; split; [reflexivity|constructor]|].
    cbn [SchedRows.every]. rewrite IH1. unfold SchedRows.perm_row in E. destruct (pm_role p) as [ro|] eqn:Ep.
    - destruct (SchedRows.slug_role roles (ro_slug ro)) as [x|] eqn:Ex; [|discriminate E]. injection E as <-. unfold SchedRows.to_perm. cbn [SchedRows.pr_role].
      apply find_some in Ex as [Hx Sx]. apply String.eqb_eq in Sx. rewrite (SchedRows.get_role_in roles NR x Hx). cbn [option_map]. eexists. split; [reflexivity|]. constructor; [|exact IH2].
      unfold same_named. rewrite Ep. exists x. split; [reflexivity|exact Sx].
    - destruct (pm_user p) as [us|] eqn:Eu; [|discriminate E]. destruct (SchedRows.named_user users (u_username us)) as [x|] eqn:Ex; [|discriminate E]. injection E as <-.
      unfold SchedRows.to_perm. cbn [SchedRows.pr_role SchedRows.pr_user].
      apply find_some in Ex as [Hx Sx]. apply String.eqb_eq in Sx. rewrite (SchedRows.get_user_in users NU x Hx). cbn [option_map]. eexists. split; [reflexivity|]. constructor; [|exact IH2].
      unfold same_named. rewrite Ep, Eu. split; [reflexivity|]. exists x. split; [reflexivity|exact Sx]. }
  exists perms. split; [unfold job_perms; now rewrite EF|]. intros n exec T r G. apply got_perms in G.
  rewrite (shown_perms r), G. pose proof (sent_decoded depth doc ij H) as D. clear - SN D.
  revert SN D. generalize (list_of (fld doc "permissions")), (ij_permissions ij), perms. intros l ips qs SN D. revert qs SN.
  induction D as [|a p l ips E _ IH]; intros qs SN; inversion SN; subst; [constructor|]. cbn [map]. constructor; [|now apply IH].
  exact (perm_read a p _ E H1).
Qed.
End Theorems.

(** Non-vacuity: a document with nested tasks, a sub-job, retries, limits, permissions and a webhook is accepted, valid, stored and read
    back; a field that no type has is refused. *)
Definition ex_doc : json := JObj
  [("name", JStr "build"); ("description", JNull); ("tags", JArr [JStr "nightly"; JStr "x"]); ("output", JStr "{{ tasks.a }}");
   ("inputs", JObj [("branch", JStr "main"); ("empty", JStr "")]); ("secrets", JObj [("token", JStr "s3cret")]);
   ("defaults", JObj [("retry", JObj [("limit", JNum 2)]); ("timeout", JStr "5m"); ("priority", JNum 3)]);
   ("webhooks", JArr [JObj [("url", JStr "http://x"); ("headers", JObj [("h", JStr "v")])]]);
   ("permissions", JArr [JObj [("role", JStr "ops")]; JObj [("user", JStr "ann"); ("role", JStr "")]]);
   ("wait", JObj [("timeout", JStr "10s")]);
   ("tasks", JArr
     [JObj [("name", JStr "a"); ("image", JStr "alpine"); ("run", JStr "echo hi"); ("env", JObj [("K", JStr "v")]); ("var", JStr "a");
            ("pre", JArr [JObj [("name", JStr "fetch"); ("run", JStr "prep")]]); ("mounts", JArr [JObj [("type", JStr "volume"); ("target", JStr "/d")]]);
            ("retry", JObj [("limit", JNum 1)]); ("limits", JObj [("cpus", JStr "1")]); ("gpus", JStr "")];
      JObj [("name", JStr "p"); ("parallel", JObj [("tasks", JArr [JObj [("name", JStr "q"); ("image", JStr "i"); ("run", JStr "r")]])])];
      JObj [("name", JStr "e"); ("each", JObj [("list", JStr "{{ seq }}"); ("concurrency", JNum 2); ("task", JObj [("name", JStr "f"); ("image", JStr "i"); ("run", JStr "r")])])];
      JObj [("name", JStr "s"); ("subjob", JObj [("name", JStr "sub"); ("detached", JBool true); ("tasks", JArr [JObj [("name", JStr "g"); ("image", JStr "i"); ("run", JStr "r")]])])]])].
Definition ann : user := mkUser 7%N "Ann" "ann" "" "" None false.
Definition ops : role := mkRole 9%N "ops" "Operators" None.
Example C100_example : exists ij T' P' r,
  proper ex_doc = true /\ in_job 3 ex_doc = Some ij /\ validate (fun _ => true) (fun _ => true) String.length (String.eqb "ann") (String.eqb "ops") ij = true /\ forallb no_subjob_id (ij_tasks ij) = true /\
  create_job (fun m => m) [7%N] [] [] (new_job 5%N 100 (to_def [] (Some ann) ij)) = Some T' /\
  add_perms [ann] [ops] [] (new_job 5%N 100 (to_def [] (Some ann) ij)) = Some P' /\
  get_job (fun m => Some m) (fun _ => Some ann) 9 [] (match job_perms [ann] [ops] P' 5%N with Some l => l | None => [] end) T' 5%N = Some r /\
  map (fun v => text_of (fld (fld v "role") "slug")) (list_of (fld (enc_job r) "permissions")) = ["ops"; ""] /\
  map (fun v => text_of (fld v "name")) (list_of (fld (enc_job r) "tasks")) = ["a"; "p"; "e"; "s"] /\
  in_job 3 (JObj [("name", JStr "x"); ("nam", JStr "y")]) = None.
Proof.
  destruct (in_job 3 ex_doc) as [ij|] eqn:E; [|vm_compute in E; discriminate E]. vm_compute in E. injection E as <-.
  do 4 eexists. split; [vm_compute; reflexivity|]. split; [reflexivity|]. split; [vm_compute; reflexivity|]. split; [vm_compute; reflexivity|].
  split; [vm_compute; reflexivity|]. split; [vm_compute; reflexivity|]. split; [vm_compute; reflexivity|]. split; [vm_compute; reflexivity|].
  split; vm_compute; reflexivity.
Qed.

(** The id of a sub-job may be sent (input/task.go:39) but is not kept (input/task.go:205-214), so the premise is needed. *)
Theorem C100_subjob_id_refuted : ~ (forall depth doc ij i t cj by_, proper doc = true -> in_job depth doc = Some ij ->
  validate (fun _ => true) (fun _ => true) String.length (fun _ => true) (fun _ => true) ij = true ->
  within (without ["wait"; "permissions"] doc) (enc_job (stored_job (new_job i t (to_def cj by_ ij))))).
Proof.
  intro H. set (g := JObj [("name", JStr "g"); ("image", JStr "i"); ("run", JStr "r")]).
  set (doc := JObj [("name", JStr "x"); ("tasks", JArr [JObj [("name", JStr "s"); ("subjob", JObj [("id", JStr "me"); ("name", JStr "sub"); ("tasks", JArr [g])])]])]).
  destruct (in_job 3 doc) as [ij|] eqn:E; [|vm_compute in E; discriminate E].
  specialize (H 3%nat doc ij 5%N 100 [] None eq_refl E). vm_compute in E. injection E as <-. specialize (H eq_refl). vm_compute in H.
  inversion H as [| | | | |o o' K]; subst; clear H. destruct (K _ _ (or_intror (or_introl eq_refl))) as [B|(v & Hin & W)]; [inversion B|].
  cbn [In] in Hin. repeat (destruct Hin as [Hin|Hin]; [try discriminate Hin|]); [|destruct Hin]. injection Hin as <-. clear K.
  inversion W as [| | | |l l' F|]; subst; clear W. inversion F as [|a b la lb Hab _]; subst; clear F.
  inversion Hab as [| | | | |o o' K]; subst; clear Hab. destruct (K _ _ (or_intror (or_introl eq_refl))) as [B|(v & Hin & W)]; [inversion B|].
  cbn [In] in Hin. repeat (destruct Hin as [Hin|Hin]; [try discriminate Hin|]); [|destruct Hin]. injection Hin as <-. clear K.
  inversion W as [| | | | |o o' K]; subst; clear W. destruct (K _ _ (or_introl eq_refl)) as [B|(v & Hin & W)]; [inversion B|].
  cbn [In] in Hin. repeat (destruct Hin as [Hin|Hin]; [try discriminate Hin|]). destruct Hin.
Qed.
Print Assumptions C100_read_back.
Print Assumptions C100_permissions.
Print Assumptions C100_subjob_id_refuted.
