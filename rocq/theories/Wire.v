(** C65: what is sent is what is received.
    Tasks and jobs travel through RabbitMQ, and their nested parts through jsonb columns, as JSON:
    broker/rabbitmq.go:399-444 (serialize, deserialize), encoding/json with the struct tags of task.go:34-153,
    mount.go:11-17, job.go:28-57,78-81,123-152, user.go:12-20, role.go:9-14.
    Simplified: text is valid UTF-8 (json.Marshal replaces invalid bytes); ids, times and progress values are JSON leaves of
    their own ([JId], [JTime], [JNum]) instead of their textual forms; nil and empty slices and maps are the same thing
    (as in Types.v). *)
From Verif Require Export EvalProofs.
Open Scope string_scope.
Open Scope list_scope.
Open Scope Z_scope.

(* ------------------------------------------------------------------ *)
(** * JSON *)
Inductive json :=
| JNull | JBool (b : bool) | JNum (z : Z) | JStr (s : string) | JId (i : id) | JTime (t : time)
| JArr (l : list json) | JObj (l : list (string * json)).

(** the first field of that name (encoding/json writes each name once) *)
Fixpoint get (o : list (string * json)) (k : string) : option json :=
  match o with [] => None | (k', v) :: o => if String.eqb k' k then Some v else get o k end.
(** an object under construction: [None] is a field left out by omitempty (or a "-" tag) *)
Fixpoint compact (l : list (string * option json)) : list (string * json) :=
  match l with
  | [] => []
  | (k, Some v) :: l => (k, v) :: compact l
  | (_, None) :: l => compact l
  end.

(** ** Encoding: omitempty leaves out "", 0, false, nil and empty slices and maps *)
Definition o_str (s : string) : option json := if String.eqb s "" then None else Some (JStr s).
Definition o_int (z : Z) : option json := if Z.eqb z 0 then None else Some (JNum z).
Definition o_bool (b : bool) : option json := if b then Some (JBool true) else None.
Definition o_id (i : id) : option json := if is_noid i then None else Some (JId i).
Definition o_time (t : option time) : option json := option_map JTime t.
Definition o_arr {A} (f : A -> json) (l : list A) : option json := match l with [] => None | _ => Some (JArr (map f l)) end.
Definition o_map (m : smap) : option json := match m with [] => None | _ => Some (JObj (map (fun p => (fst p, JStr (snd p))) m)) end.
Definition o_ptr {A} (f : A -> json) (x : option A) : option json := option_map f x.
(** without omitempty *)
Definition a_arr {A} (f : A -> json) (l : list A) : option json := Some (match l with [] => JNull | _ => JArr (map f l) end).

(** ** Decoding: an absent field or null leaves the zero value; a wrong kind of value is an error *)
Definition d_str (j : option json) : option string := match j with None | Some JNull => Some "" | Some (JStr s) => Some s | _ => None end.
Definition d_int (j : option json) : option Z := match j with None | Some JNull => Some 0 | Some (JNum z) => Some z | _ => None end.
Definition d_bool (j : option json) : option bool := match j with None | Some JNull => Some false | Some (JBool b) => Some b | _ => None end.
Definition d_id (j : option json) : option id := match j with None | Some JNull => Some noid | Some (JId i) => Some i | _ => None end.
Definition d_time (j : option json) : option (option time) := match j with None | Some JNull => Some None | Some (JTime t) => Some (Some t) | _ => None end.
Definition d_time0 (j : option json) : option time := match j with None | Some JNull => Some 0 | Some (JTime t) => Some t | _ => None end.
Fixpoint d_all {A} (f : json -> option A) (l : list json) : option (list A) :=
  match l with [] => Some [] | j :: l => match f j, d_all f l with Some x, Some r => Some (x :: r) | _, _ => None end end.
Definition d_arr {A} (f : json -> option A) (j : option json) : option (list A) :=
  match j with None | Some JNull => Some [] | Some (JArr l) => d_all f l | _ => None end.
Fixpoint d_pairs (l : list (string * json)) : option smap :=
  match l with
  | [] => Some []
  | (k, v) :: l => match d_str (Some v), d_pairs l with Some s, Some r => Some ((k, s) :: r) | _, _ => None end
  end.
Definition d_map (j : option json) : option smap :=
  match j with None | Some JNull => Some [] | Some (JObj l) => d_pairs l | _ => None end.
Definition d_ptr {A} (f : json -> option A) (j : option json) : option (option A) :=
  match j with None | Some JNull => Some None | Some j => match f j with Some x => Some (Some x) | None => None end end.
Definition d_state {S} (l : list (string * S)) (j : option json) : option S :=
  match j with
  | Some (JStr s) => match find (fun p => String.eqb (fst p) s) l with Some (_, x) => Some x | None => None end
  | _ => None
  end.
Definition j_string (s : string) : json := JStr s.
Definition d_string (j : json) : option string := d_str (Some j).

Notation "'let?' x ':=' e 'in' f" := (match e with Some x => f | None => None end) (at level 200, x name, e at level 100, f at level 200).
Definition fields {A} (j : json) (f : (string -> option json) -> option A) : option A :=
  match j with JObj o => f (get o) | _ => None end.

(* ------------------------------------------------------------------ *)
(** * The structs *)
(** task.go:12-24 *)
Definition tstate_name (s : tstate) : string :=
  match s with TCreated => "CREATED" | TPending => "PENDING" | TScheduled => "SCHEDULED" | TRunning => "RUNNING" | TCancelled => "CANCELLED"
  | TStopped => "STOPPED" | TCompleted => "COMPLETED" | TFailed => "FAILED" | TSkipped => "SKIPPED" end.
Definition tstates : list (string * tstate) :=
  map (fun s => (tstate_name s, s)) [TCreated; TPending; TScheduled; TRunning; TCancelled; TStopped; TCompleted; TFailed; TSkipped].
(** job.go:9-19 *)
Definition jstate_name (s : jstate) : string :=
  match s with JPending => "PENDING" | JScheduled => "SCHEDULED" | JRunning => "RUNNING" | JCancelled => "CANCELLED"
  | JCompleted => "COMPLETED" | JFailed => "FAILED" | JRestart => "RESTART" end.
Definition jstates : list (string * jstate) :=
  map (fun s => (jstate_name s, s)) [JPending; JScheduled; JRunning; JCancelled; JCompleted; JFailed; JRestart].

(** task.go:134-153 *)
Definition enc_retry (r : retry) : json := JObj (compact [("limit", o_int (r_limit r)); ("attempts", o_int (r_attempts r))]).
Definition dec_retry (j : json) : option retry := fields j (fun g => let? a := d_int (g "limit") in let? b := d_int (g "attempts") in Some (mkRetry a b)).
Definition enc_limits (r : limits) : json := JObj (compact [("cpus", o_str (l_cpus r)); ("memory", o_str (l_memory r))]).
Definition dec_limits (j : json) : option limits := fields j (fun g => let? a := d_str (g "cpus") in let? b := d_str (g "memory") in Some (mkLimits a b)).
Definition enc_registry (r : registry) : json := JObj (compact [("username", o_str (rg_username r)); ("password", o_str (rg_password r))]).
Definition dec_registry (j : json) : option registry := fields j (fun g => let? a := d_str (g "username") in let? b := d_str (g "password") in Some (mkRegistry a b)).
Definition enc_probe (p : probe) : json := JObj (compact [("path", o_str (pb_path p)); ("port", o_int (pb_port p)); ("timeout", o_str (pb_timeout p))]).
Definition dec_probe (j : json) : option probe := fields j (fun g => let? a := d_str (g "path") in let? b := d_int (g "port") in let? c := d_str (g "timeout") in Some (mkProbe a b c)).
(** mount.go:11-17: ID is tagged "-" *)
Definition enc_mount (m : mount) : json :=
  JObj (compact [("type", o_str (m_type m)); ("source", o_str (m_source m)); ("target", o_str (m_target m)); ("opts", o_map (m_opts m))]).
Definition dec_mount (j : json) : option mount := fields j (fun g =>
  let? a := d_str (g "type") in let? b := d_str (g "source") in let? c := d_str (g "target") in let? d := d_map (g "opts") in Some (mkMount "" a b c d)).
(** job.go:128-130,147-152 *)
Definition enc_autodelete (a : autodelete) : json := JObj (compact [("after", o_str (ad_after a))]).
Definition dec_autodelete (j : json) : option autodelete := fields j (fun g => let? a := d_str (g "after") in Some (mkAutoDelete a)).
Definition enc_webhook (w : webhook) : json :=
  JObj (compact [("url", o_str (wh_url w)); ("headers", o_map (wh_headers w)); ("event", o_str (wh_event w)); ("if", o_str (wh_if w))]).
Definition dec_webhook (j : json) : option webhook := fields j (fun g =>
  let? a := d_str (g "url") in let? b := d_map (g "headers") in let? c := d_str (g "event") in let? d := d_str (g "if") in Some (mkWebhook a b c d)).

(** task.go:34-78,106-132 *)
Fixpoint enc_task (t : task) : json :=
  JObj (compact
    [("id", o_id (t_id t)); ("jobId", o_id (t_job t)); ("parentId", o_id (t_parent t)); ("position", o_int (t_position t));
     ("name", o_str (t_name t)); ("description", o_str (t_description t)); ("state", Some (JStr (tstate_name (t_state t))));
     ("createdAt", o_time (t_created t)); ("scheduledAt", o_time (t_scheduled t)); ("startedAt", o_time (t_started t));
     ("completedAt", o_time (t_completed t)); ("failedAt", o_time (t_failed t));
     ("cmd", o_arr j_string (t_cmd t)); ("entrypoint", o_arr j_string (t_entrypoint t)); ("run", o_str (t_run t)); ("image", o_str (t_image t));
     ("registry", o_ptr enc_registry (t_registry t)); ("env", o_map (t_env t)); ("files", o_map (t_files t)); ("queue", o_str (t_queue t));
     ("redelivered", o_int (t_redelivered t)); ("error", o_str (t_error t));
     ("pre", o_arr enc_task (t_pre t)); ("post", o_arr enc_task (t_post t)); ("sidecars", o_arr enc_task (t_sidecars t));
     ("mounts", o_arr enc_mount (t_mounts t)); ("networks", o_arr j_string (t_networks t)); ("nodeId", o_id (t_node t));
     ("retry", o_ptr enc_retry (t_retry t)); ("limits", o_ptr enc_limits (t_limits t)); ("timeout", o_str (t_timeout t));
     ("result", o_str (t_result t)); ("var", o_str (t_var t)); ("if", o_str (t_if t));
     ("parallel", match t_parallel t with
                  | None => None
                  | Some p => Some (JObj (compact [("tasks", o_arr enc_task (p_tasks p)); ("completions", o_int (p_completions p))])) end);
     ("each", match t_each t with
              | None => None
              | Some e => Some (JObj (compact [("var", o_str (e_var e)); ("list", o_str (e_list e)); ("task", Some (enc_task (e_task e)));
                    ("size", o_int (e_size e)); ("completions", o_int (e_completions e)); ("concurrency", o_int (e_concurrency e)); ("index", o_int (e_index e))])) end);
     ("subjob", match t_subjob t with
                | None => None
                | Some s => Some (JObj (compact [("id", o_id (s_id s)); ("name", o_str (s_name s)); ("description", o_str (s_description s));
                    ("tasks", o_arr enc_task (s_tasks s)); ("inputs", o_map (s_inputs s)); ("secrets", o_map (s_secrets s));
                    ("autoDelete", o_ptr enc_autodelete (s_autodelete s)); ("output", o_str (s_output s)); ("detached", o_bool (s_detached s));
                    ("webhooks", o_arr enc_webhook (s_webhooks s))])) end);
     ("gpus", o_str (t_gpus t)); ("tags", o_arr j_string (t_tags t)); ("workdir", o_str (t_workdir t)); ("priority", o_int (t_priority t));
     ("progress", o_int (t_progress t)); ("probe", o_ptr enc_probe (t_probe t))]).

Section Nested.
Variable dec : json -> option task.
Definition dec_parallel (j : json) : option (parallelT task) := fields j (fun g =>
  let? a := d_arr dec (g "tasks") in let? b := d_int (g "completions") in Some (mkParallel a b)).
Definition dec_each (j : json) : option (eachT task) := fields j (fun g =>
  let? a := d_str (g "var") in let? b := d_str (g "list") in
  let? c := match g "task" with Some j => dec j | None => None end in
  let? d := d_int (g "size") in let? e := d_int (g "completions") in let? f := d_int (g "concurrency") in let? h := d_int (g "index") in
  Some (mkEach a b c d e f h)).
Definition dec_subjob (j : json) : option (subjobT task) := fields j (fun g =>
  let? a := d_id (g "id") in let? b := d_str (g "name") in let? c := d_str (g "description") in let? d := d_arr dec (g "tasks") in
  let? e := d_map (g "inputs") in let? f := d_map (g "secrets") in let? h := d_ptr dec_autodelete (g "autoDelete") in
  let? i := d_str (g "output") in let? k := d_bool (g "detached") in let? l := d_arr dec_webhook (g "webhooks") in
  Some (mkSubJob a b c d e f h i k l)).
Definition dec_task1 (j : json) : option task := fields j (fun g =>
  let? v1 := d_id (g "id") in let? v2 := d_id (g "jobId") in let? v3 := d_id (g "parentId") in let? v4 := d_int (g "position") in
  let? v5 := d_str (g "name") in let? v6 := d_str (g "description") in let? v7 := d_state tstates (g "state") in
  let? v8 := d_time (g "createdAt") in let? v9 := d_time (g "scheduledAt") in let? v10 := d_time (g "startedAt") in
  let? v11 := d_time (g "completedAt") in let? v12 := d_time (g "failedAt") in
  let? v13 := d_arr d_string (g "cmd") in let? v14 := d_arr d_string (g "entrypoint") in let? v15 := d_str (g "run") in let? v16 := d_str (g "image") in
  let? v17 := d_ptr dec_registry (g "registry") in let? v18 := d_map (g "env") in let? v19 := d_map (g "files") in let? v20 := d_str (g "queue") in
  let? v21 := d_int (g "redelivered") in let? v22 := d_str (g "error") in
  let? v23 := d_arr dec (g "pre") in let? v24 := d_arr dec (g "post") in let? v25 := d_arr dec (g "sidecars") in
  let? v26 := d_arr dec_mount (g "mounts") in let? v27 := d_arr d_string (g "networks") in let? v28 := d_id (g "nodeId") in
  let? v29 := d_ptr dec_retry (g "retry") in let? v30 := d_ptr dec_limits (g "limits") in let? v31 := d_str (g "timeout") in
  let? v32 := d_str (g "result") in let? v33 := d_str (g "var") in let? v34 := d_str (g "if") in
  let? v35 := d_ptr dec_parallel (g "parallel") in let? v36 := d_ptr dec_each (g "each") in let? v37 := d_ptr dec_subjob (g "subjob") in
  let? v38 := d_str (g "gpus") in let? v39 := d_arr d_string (g "tags") in let? v40 := d_str (g "workdir") in let? v41 := d_int (g "priority") in
  let? v42 := d_int (g "progress") in let? v43 := d_ptr dec_probe (g "probe") in
  Some (mkTask v1 v2 v3 v4 v5 v6 v7 v8 v9 v10 v11 v12 v13 v14 v15 v16 v17 v18 v19 v20 v21 v22 v23 v24 v25 v26 v27 v28 v29 v30
               v31 v32 v33 v34 v35 v36 v37 v38 v39 v40 v41 v42 v43)).
End Nested.
(** Nesting is followed to a given depth; a deeper value is not decoded.  Go has no such limit: the theorems hold for every
    large enough depth. *)
Fixpoint dec_task (depth : nat) (j : json) : option task :=
  match depth with O => None | S n => dec_task1 (dec_task n) j end.

(** user.go:12-20: passwordHash is tagged "-".  role.go:9-14; job.go:123-126 *)
Definition enc_user (u : user) : json :=
  JObj (compact [("id", o_id (u_id u)); ("name", o_str (u_name u)); ("username", o_str (u_username u)); ("password", o_str (u_password u));
                 ("createdAt", o_time (u_created u)); ("disabled", o_bool (u_disabled u))]).
Definition dec_user (j : json) : option user := fields j (fun g =>
  let? a := d_id (g "id") in let? b := d_str (g "name") in let? c := d_str (g "username") in let? d := d_str (g "password") in
  let? e := d_time (g "createdAt") in let? f := d_bool (g "disabled") in Some (mkUser a b c "" d e f)).
Definition enc_role (r : role) : json :=
  JObj (compact [("id", o_id (ro_id r)); ("slug", o_str (ro_slug r)); ("name", o_str (ro_name r)); ("createdAt", o_time (ro_created r))]).
Definition dec_role (j : json) : option role := fields j (fun g =>
  let? a := d_id (g "id") in let? b := d_str (g "slug") in let? c := d_str (g "name") in let? d := d_time (g "createdAt") in Some (mkRole a b c d)).
Definition enc_permission (p : permission) : json := JObj (compact [("role", o_ptr enc_role (pm_role p)); ("user", o_ptr enc_user (pm_user p))]).
Definition dec_permission (j : json) : option permission := fields j (fun g =>
  let? a := d_ptr dec_role (g "role") in let? b := d_ptr dec_user (g "user") in Some (mkPermission a b)).
(** job.go:78-81,132-145 *)
Definition enc_ctx (c : jobctx) : json :=
  JObj (compact [("job", o_map (c_job c)); ("inputs", o_map (c_inputs c)); ("secrets", o_map (c_secrets c)); ("tasks", o_map (c_tasks c))]).
Definition dec_ctx (j : json) : option jobctx := fields j (fun g =>
  let? a := d_map (g "job") in let? b := d_map (g "inputs") in let? c := d_map (g "secrets") in let? d := d_map (g "tasks") in Some (mkCtx a b c d)).
Definition enc_defaults (d : jobdefaults) : json :=
  JObj (compact [("retry", o_ptr enc_retry (d_retry d)); ("limits", o_ptr enc_limits (d_limits d)); ("timeout", o_str (d_timeout d));
                 ("queue", o_str (d_queue d)); ("priority", o_int (d_priority d))]).
Definition dec_defaults (j : json) : option jobdefaults := fields j (fun g =>
  let? a := d_ptr dec_retry (g "retry") in let? b := d_ptr dec_limits (g "limits") in let? c := d_str (g "timeout") in
  let? d := d_str (g "queue") in let? e := d_int (g "priority") in Some (mkDefaults a b c d e)).
Definition enc_schedule (s : jobschedule) : json := JObj (compact [("id", o_id (sc_id s)); ("cron", o_str (sc_cron s))]).
Definition dec_schedule (j : json) : option jobschedule := fields j (fun g => let? a := d_id (g "id") in let? b := d_str (g "cron") in Some (mkSchedule a b)).

(** job.go:28-57.  createdAt and context are structs, which omitempty never leaves out; tasks, execution and position have no
    omitempty. *)
Definition enc_job (j : job) : json :=
  JObj (compact
    [("id", o_id (j_id j)); ("parentId", o_id (j_parent j)); ("name", o_str (j_name j)); ("description", o_str (j_description j));
     ("tags", o_arr j_string (j_tags j)); ("state", Some (JStr (jstate_name (j_state j)))); ("createdAt", Some (JTime (j_created j)));
     ("createdBy", o_ptr enc_user (j_createdby j)); ("startedAt", o_time (j_started j)); ("completedAt", o_time (j_completed j));
     ("failedAt", o_time (j_failed j)); ("tasks", a_arr enc_task (j_tasks j)); ("execution", a_arr enc_task (j_execution j));
     ("position", Some (JNum (j_position j))); ("inputs", o_map (j_inputs j)); ("context", Some (enc_ctx (j_context j)));
     ("taskCount", o_int (j_taskcount j)); ("output", o_str (j_output j)); ("result", o_str (j_result j)); ("error", o_str (j_error j));
     ("defaults", o_ptr enc_defaults (j_defaults j)); ("webhooks", o_arr enc_webhook (j_webhooks j));
     ("permissions", o_arr enc_permission (j_permissions j)); ("autoDelete", o_ptr enc_autodelete (j_autodelete j));
     ("deleteAt", o_time (j_deleteat j)); ("secrets", o_map (j_secrets j)); ("progress", o_int (j_progress j));
     ("schedule", o_ptr enc_schedule (j_schedule j))]).
Definition dec_job (depth : nat) (j : json) : option job := fields j (fun g =>
  let? v1 := d_id (g "id") in let? v2 := d_id (g "parentId") in let? v3 := d_str (g "name") in let? v4 := d_str (g "description") in
  let? v5 := d_arr d_string (g "tags") in let? v6 := d_state jstates (g "state") in let? v7 := d_time0 (g "createdAt") in
  let? v8 := d_ptr dec_user (g "createdBy") in let? v9 := d_time (g "startedAt") in let? v10 := d_time (g "completedAt") in
  let? v11 := d_time (g "failedAt") in let? v12 := d_arr (dec_task depth) (g "tasks") in let? v13 := d_arr (dec_task depth) (g "execution") in
  let? v14 := d_int (g "position") in let? v15 := d_map (g "inputs") in
  let? v16 := match g "context" with Some j => dec_ctx j | None => Some (mkCtx [] [] [] []) end in
  let? v17 := d_int (g "taskCount") in let? v18 := d_str (g "output") in let? v19 := d_str (g "result") in let? v20 := d_str (g "error") in
  let? v21 := d_ptr dec_defaults (g "defaults") in let? v22 := d_arr dec_webhook (g "webhooks") in
  let? v23 := d_arr dec_permission (g "permissions") in let? v24 := d_ptr dec_autodelete (g "autoDelete") in
  let? v25 := d_time (g "deleteAt") in let? v26 := d_map (g "secrets") in let? v27 := d_int (g "progress") in
  let? v28 := d_ptr dec_schedule (g "schedule") in
  Some (mkJob v1 v2 v3 v4 v5 v6 v7 v8 v9 v10 v11 v12 v13 v14 v15 v16 v17 v18 v19 v20 v21 v22 v23 v24 v25 v26 v27 v28)).

(* ------------------------------------------------------------------ *)
(** * Specification: what is lost on the way *)
(** the identifier of a mount is not sent *)
Definition bare_mount (m : mount) : mount := mkMount "" (m_type m) (m_source m) (m_target m) (m_opts m).
Fixpoint bare (t : task) : task :=
  mkTask (t_id t) (t_job t) (t_parent t) (t_position t) (t_name t) (t_description t) (t_state t)
    (t_created t) (t_scheduled t) (t_started t) (t_completed t) (t_failed t) (t_cmd t) (t_entrypoint t) (t_run t) (t_image t)
    (t_registry t) (t_env t) (t_files t) (t_queue t) (t_redelivered t) (t_error t)
    (map bare (t_pre t)) (map bare (t_post t)) (map bare (t_sidecars t)) (map bare_mount (t_mounts t)) (t_networks t) (t_node t)
    (t_retry t) (t_limits t) (t_timeout t) (t_result t) (t_var t) (t_if t)
    (match t_parallel t with None => None | Some p => Some (mkParallel (map bare (p_tasks p)) (p_completions p)) end)
    (match t_each t with None => None
     | Some e => Some (mkEach (e_var e) (e_list e) (bare (e_task e)) (e_size e) (e_completions e) (e_concurrency e) (e_index e)) end)
    (match t_subjob t with None => None
     | Some s => Some (mkSubJob (s_id s) (s_name s) (s_description s) (map bare (s_tasks s)) (s_inputs s) (s_secrets s)
                         (s_autodelete s) (s_output s) (s_detached s) (s_webhooks s)) end)
    (t_gpus t) (t_tags t) (t_workdir t) (t_priority t) (t_progress t) (t_probe t).
(** the password hash of a user is not sent *)
Definition public (u : user) : user := mkUser (u_id u) (u_name u) (u_username u) "" (u_password u) (u_created u) (u_disabled u).
Definition public_permission (p : permission) : permission := mkPermission (pm_role p) (option_map public (pm_user p)).
Definition bare_job (j : job) : job :=
  j <| j_tasks := map bare (j_tasks j) |> <| j_execution := map bare (j_execution j) |>
    <| j_createdby := option_map public (j_createdby j) |> <| j_permissions := map public_permission (j_permissions j) |>.

(* ------------------------------------------------------------------ *)
(** * Proofs *)
Fixpoint assocj (l : list (string * option json)) (k : string) : option json :=
  match l with [] => None | (k', v) :: l => if String.eqb k' k then v else assocj l k end.
Fixpoint distinct (l : list string) : bool :=
  match l with [] => true | k :: l => negb (existsb (String.eqb k) l) && distinct l end.

Lemma get_none (l : list (string * option json)) k : existsb (String.eqb k) (map fst l) = false -> get (compact l) k = None.
Proof.
  induction l as [|[k' [v|]] l IH]; cbn; intro H; auto.
  - apply orb_false_iff in H as [H1 H2]. rewrite String.eqb_sym, H1. auto.
  - apply orb_false_iff in H as [H1 H2]. auto.
Qed.
Lemma get_compact (l : list (string * option json)) k : distinct (map fst l) = true -> get (compact l) k = assocj l k.
Proof.
  induction l as [|[k' [v|]] l IH]; cbn; intro H; auto; apply andb_prop in H as [H1 H2].
  - destruct (String.eqb k' k); auto.
  - destruct (String.eqb k' k) eqn:E; auto. apply String.eqb_eq in E as ->. apply get_none, negb_true_iff, H1.
Qed.
Lemma fields_compact {A} l (f : (string -> option json) -> option A) r :
  distinct (map fst l) = true -> (forall g, (forall k, g k = assocj l k) -> f g = r) -> fields (JObj (compact l)) f = r.
Proof. intros D H. cbn. apply H. intro k. now apply get_compact. Qed.

Lemma rt_str s : d_str (o_str s) = Some s.
Proof. unfold o_str. destruct (String.eqb s "") eqn:E; auto. apply String.eqb_eq in E as ->; auto. Qed.
Lemma rt_int s : d_int (o_int s) = Some s.
Proof. unfold o_int. destruct (Z.eqb s 0) eqn:E; auto. apply Z.eqb_eq in E as ->; auto. Qed.
Lemma rt_bool b : d_bool (o_bool b) = Some b.
Proof. destruct b; auto. Qed.
Lemma rt_id i : d_id (o_id i) = Some i.
Proof. unfold o_id. unfold is_noid. destruct (N.eqb i 0) eqn:E; auto. apply N.eqb_eq in E as ->; auto. Qed.
Lemma rt_time t : d_time (o_time t) = Some t.
Proof. destruct t; auto. Qed.
Lemma rt_all {A} (e : A -> json) d (f : A -> A) l : Forall (fun x => d (e x) = Some (f x)) l -> d_all d (map e l) = Some (map f l).
Proof. induction 1 as [|x l H Hl IH]; cbn; auto. now rewrite H, IH. Qed.
Lemma rt_arr {A} (e : A -> json) d (f : A -> A) l : Forall (fun x => d (e x) = Some (f x)) l -> d_arr d (o_arr e l) = Some (map f l).
Proof. intro H. destruct l; auto. apply (rt_all e d f), H. Qed.
Lemma rt_arr' {A} (e : A -> json) d (f : A -> A) l : Forall (fun x => d (e x) = Some (f x)) l -> d_arr d (a_arr e l) = Some (map f l).
Proof. intro H. destruct l; auto. apply (rt_all e d f), H. Qed.
Lemma rt_strs l : d_arr d_string (o_arr j_string l) = Some l.
Proof. rewrite (rt_arr j_string d_string (fun x => x)); [now rewrite map_id|]. apply Forall_forall. reflexivity. Qed.
Lemma rt_pairs m : d_pairs (map (fun p => (fst p, JStr (snd p))) m) = Some m.
Proof. induction m as [|[k v] m IH]; cbn; auto. now rewrite IH. Qed.
Lemma rt_map m : d_map (o_map m) = Some m.
Proof. destruct m as [|p m]; auto. exact (rt_pairs (p :: m)). Qed.
Lemma rt_ptr {A} (e : A -> json) d (f : A -> A) x : (forall x, d (e x) = Some (f x)) -> (forall x, e x <> JNull) ->
  d_ptr d (o_ptr e x) = Some (option_map f x).
Proof. intros H N. destruct x as [x|]; auto. cbn. specialize (H x). specialize (N x). destruct (e x); try rewrite H; auto; congruence. Qed.
Lemma rt_ptr' {A} (e : A -> json) d x : (forall x, d (e x) = Some x) -> (forall x, e x <> JNull) -> d_ptr d (o_ptr e x) = Some x.
Proof. intros H N. rewrite (rt_ptr e d (fun x => x)); auto. now destruct x. Qed.
Lemma rt_tstate s : d_state tstates (Some (JStr (tstate_name s))) = Some s.
Proof. now destruct s. Qed.
Lemma rt_jstate s : d_state jstates (Some (JStr (jstate_name s))) = Some s.
Proof. now destruct s. Qed.

Ltac start := match goal with |- fields _ _ = _ => apply fields_compact; [reflexivity|] end;
  let g := fresh "g" in let G := fresh "G" in intros g G; rewrite !G; clear g G;
  cbn [assocj String.eqb Ascii.eqb Bool.eqb].
Ltac fin := rewrite ?rt_str, ?rt_int, ?rt_bool, ?rt_id, ?rt_time, ?rt_strs, ?rt_map, ?rt_tstate, ?rt_jstate; cbv iota.

Lemma rt_retry r : dec_retry (enc_retry r) = Some r.
Proof. unfold dec_retry, enc_retry. start. fin. now destruct r. Qed.
Lemma rt_limits r : dec_limits (enc_limits r) = Some r.
Proof. unfold dec_limits, enc_limits. start. fin. now destruct r. Qed.
Lemma rt_registry r : dec_registry (enc_registry r) = Some r.
Proof. unfold dec_registry, enc_registry. start. fin. now destruct r. Qed.
Lemma rt_probe r : dec_probe (enc_probe r) = Some r.
Proof. unfold dec_probe, enc_probe. start. fin. now destruct r. Qed.
Lemma rt_mount r : dec_mount (enc_mount r) = Some (bare_mount r).
Proof. unfold dec_mount, enc_mount. start. fin. now destruct r. Qed.
Lemma rt_autodelete r : dec_autodelete (enc_autodelete r) = Some r.
Proof. unfold dec_autodelete, enc_autodelete. start. fin. now destruct r. Qed.
Lemma rt_webhook r : dec_webhook (enc_webhook r) = Some r.
Proof. unfold dec_webhook, enc_webhook. start. fin. now destruct r. Qed.
Lemma rt_user r : dec_user (enc_user r) = Some (public r).
Proof. unfold dec_user, enc_user. start. fin. now destruct r. Qed.
Lemma rt_role r : dec_role (enc_role r) = Some r.
Proof. unfold dec_role, enc_role. start. fin. now destruct r. Qed.
Ltac ptr L := rewrite (rt_ptr' _ _ _ L); [|intro; discriminate].
Lemma rt_permission r : dec_permission (enc_permission r) = Some (public_permission r).
Proof.
  unfold dec_permission, enc_permission. start. ptr rt_role. rewrite (rt_ptr _ _ _ _ rt_user); [|intro; discriminate]. now destruct r.
Qed.
Lemma rt_ctx r : dec_ctx (enc_ctx r) = Some r.
Proof. unfold dec_ctx, enc_ctx. start. fin. now destruct r. Qed.
Lemma rt_defaults r : dec_defaults (enc_defaults r) = Some r.
Proof. unfold dec_defaults, enc_defaults. start. ptr rt_retry. ptr rt_limits. fin. now destruct r. Qed.
Lemma rt_schedule r : dec_schedule (enc_schedule r) = Some r.
Proof. unfold dec_schedule, enc_schedule. start. fin. now destruct r. Qed.

Definition sends (n : nat) (t : task) : Prop := dec_task n (enc_task t) = Some (bare t).
Definition sent_at (n0 : nat) (t : task) : Prop := forall n, (n0 <= n)%nat -> sends n t.

Lemma common l : Forall (fun t => exists n0, sent_at n0 t) l -> exists n0, Forall (sent_at n0) l.
Proof.
  induction 1 as [|t l [n H] Hl [m IH]]; [exists 0%nat; constructor|].
  exists (n + m)%nat. constructor.
  - intros k K. apply H. lia.
  - eapply Forall_impl; [|exact IH]. intros x X k K. apply X. lia.
Qed.
Lemma sent_more n m l : (n <= m)%nat -> Forall (sent_at n) l -> Forall (sends m) l.
Proof. intros L H. eapply Forall_impl; [|exact H]. intros x X. apply X, L. Qed.

Lemma bind_some {A B} (e : option A) (f : A -> option B) v r : e = Some v -> f v = r -> (match e with Some x => f x | None => None end) = r.
Proof. now intros -> H. Qed.
Ltac field := match goal with G : forall k, _ = assocj _ _ |- _ = Some ?v => rewrite G; clear G; cbn [assocj String.eqb Ascii.eqb Bool.eqb] end;
  first [apply rt_str | apply rt_int | apply rt_bool | apply rt_id | apply rt_time | apply rt_strs | apply rt_map | apply rt_tstate | apply rt_jstate
        | idtac].
Ltac next := eapply bind_some; [field|].
Ltac proj := cbn [enc_task bare t_cmd t_completed t_created t_description t_each t_entrypoint t_env t_error t_failed t_files t_gpus t_id t_if t_image t_job t_limits t_mounts t_name t_networks t_node t_parallel t_parent t_position t_post t_pre t_priority t_probe t_progress t_queue t_redelivered t_registry t_result t_retry t_run t_scheduled t_sidecars t_started t_state t_subjob t_tags t_timeout t_var t_workdir].

Section One.
Variable n : nat.
Lemma rt_parallel p : Forall (sends n) (p_tasks p) ->
  dec_parallel (dec_task n) (JObj (compact [("tasks", o_arr enc_task (p_tasks p)); ("completions", o_int (p_completions p))]))
  = Some (mkParallel (map bare (p_tasks p)) (p_completions p)).
Proof. intro H. unfold dec_parallel. start. rewrite (rt_arr _ _ _ _ H). fin. reflexivity. Qed.
Lemma rt_each e : sends n (e_task e) ->
  dec_each (dec_task n) (JObj (compact [("var", o_str (e_var e)); ("list", o_str (e_list e)); ("task", Some (enc_task (e_task e)));
                    ("size", o_int (e_size e)); ("completions", o_int (e_completions e)); ("concurrency", o_int (e_concurrency e)); ("index", o_int (e_index e))]))
  = Some (mkEach (e_var e) (e_list e) (bare (e_task e)) (e_size e) (e_completions e) (e_concurrency e) (e_index e)).
Proof. intro H. unfold dec_each. start. unfold sends in H. rewrite H. fin. reflexivity. Qed.
Lemma rt_subjob s : Forall (sends n) (s_tasks s) ->
  dec_subjob (dec_task n) (JObj (compact [("id", o_id (s_id s)); ("name", o_str (s_name s)); ("description", o_str (s_description s));
                    ("tasks", o_arr enc_task (s_tasks s)); ("inputs", o_map (s_inputs s)); ("secrets", o_map (s_secrets s));
                    ("autoDelete", o_ptr enc_autodelete (s_autodelete s)); ("output", o_str (s_output s)); ("detached", o_bool (s_detached s));
                    ("webhooks", o_arr enc_webhook (s_webhooks s))]))
  = Some (mkSubJob (s_id s) (s_name s) (s_description s) (map bare (s_tasks s)) (s_inputs s) (s_secrets s)
                         (s_autodelete s) (s_output s) (s_detached s) (s_webhooks s)).
Proof.
  intro H. unfold dec_subjob. start. rewrite (rt_arr _ _ _ _ H). ptr rt_autodelete.
  rewrite (rt_arr enc_webhook dec_webhook (fun x => x)) by (apply Forall_forall; intros; apply rt_webhook). rewrite map_id.
  fin. reflexivity.
Qed.
Lemma rt_task1 t : Forall (sends n) (t_pre t) -> Forall (sends n) (t_post t) -> Forall (sends n) (t_sidecars t) ->
  (forall p, t_parallel t = Some p -> Forall (sends n) (p_tasks p)) ->
  (forall e, t_each t = Some e -> sends n (e_task e)) ->
  (forall s, t_subjob t = Some s -> Forall (sends n) (s_tasks s)) ->
  sends (S n) t.
Proof.
  intros H1 H2 H3 H4 H5 H6. unfold sends. cbn [dec_task]. unfold dec_task1. destruct t. proj. cbn in H1, H2, H3, H4, H5, H6.
  apply fields_compact; [reflexivity|]. intros g G.
  do 16 next.
  next. { ptr rt_registry. reflexivity. }
  do 5 next.
  next. { exact (rt_arr _ _ _ _ H1). }
  next. { exact (rt_arr _ _ _ _ H2). }
  next. { exact (rt_arr _ _ _ _ H3). }
  next. { apply (rt_arr _ _ bare_mount). apply Forall_forall; intros; apply rt_mount. }
  do 2 next.
  next. { ptr rt_retry. reflexivity. }
  next. { ptr rt_limits. reflexivity. }
  do 4 next.
  next. { instantiate (1 := match t_parallel with None => None | Some p => Some (mkParallel (map bare (p_tasks p)) (p_completions p)) end).
    destruct t_parallel as [p|]; [|reflexivity]. cbn [d_ptr]. rewrite (rt_parallel p (H4 p eq_refl)). reflexivity. }
  next. { instantiate (1 := match t_each with None => None
     | Some e => Some (mkEach (e_var e) (e_list e) (bare (e_task e)) (e_size e) (e_completions e) (e_concurrency e) (e_index e)) end).
    destruct t_each as [p|]; [|reflexivity]. cbn [d_ptr]. rewrite (rt_each p (H5 p eq_refl)). reflexivity. }
  next. { instantiate (1 := match t_subjob with None => None
     | Some s => Some (mkSubJob (s_id s) (s_name s) (s_description s) (map bare (s_tasks s)) (s_inputs s) (s_secrets s)
                         (s_autodelete s) (s_output s) (s_detached s) (s_webhooks s)) end).
    destruct t_subjob as [p|]; [|reflexivity]. cbn [d_ptr]. rewrite (rt_subjob p (H6 p eq_refl)). reflexivity. }
  do 5 next.
  next. { ptr rt_probe. reflexivity. }
  reflexivity.
Qed.
End One.

Lemma sent_total t : exists n0, sent_at n0 t.
Proof.
  induction t as [t (I1 & I2 & I3 & I4 & I5 & I6)] using task_nested_ind.
  apply common in I1 as [a A], I2 as [b B], I3 as [c C].
  assert (exists d, forall p, t_parallel t = Some p -> Forall (sent_at d) (p_tasks p)) as [d D].
  { destruct (t_parallel t) as [p|]; [|exists 0%nat; discriminate]. specialize (I4 p eq_refl). apply common in I4 as [d D].
    exists d. intros q E. injection E as <-. exact D. }
  assert (exists e, forall p, t_each t = Some p -> sent_at e (e_task p)) as [e E].
  { destruct (t_each t) as [p|]; [|exists 0%nat; discriminate]. specialize (I5 p eq_refl) as [e E].
    exists e. intros q Q. injection Q as <-. exact E. }
  assert (exists f, forall p, t_subjob t = Some p -> Forall (sent_at f) (s_tasks p)) as [f F].
  { destruct (t_subjob t) as [p|]; [|exists 0%nat; discriminate]. specialize (I6 p eq_refl). apply common in I6 as [f F].
    exists f. intros q Q. injection Q as <-. exact F. }
  exists (S (a + b + c + d + e + f)). intros [|n] L; [lia|]. apply rt_task1.
  - apply (sent_more a); [lia|exact A].
  - apply (sent_more b); [lia|exact B].
  - apply (sent_more c); [lia|exact C].
  - intros p P. apply (sent_more d); [lia|exact (D p P)].
  - intros p P. apply (E p P); lia.
  - intros p P. apply (sent_more f); [lia|exact (F p P)].
Qed.
Lemma all_sent l : exists n0, Forall (sent_at n0) l.
Proof. apply common, Forall_forall. intros t _. apply sent_total. Qed.

(** every mount of a task, nested tasks included *)
Fixpoint mounts_in (t : task) : list mount :=
  t_mounts t ++ flat_map mounts_in (t_pre t) ++ flat_map mounts_in (t_post t) ++ flat_map mounts_in (t_sidecars t)
  ++ match t_parallel t with None => [] | Some p => flat_map mounts_in (p_tasks p) end
  ++ match t_each t with None => [] | Some e => mounts_in (e_task e) end
  ++ match t_subjob t with None => [] | Some s => flat_map mounts_in (s_tasks s) end.

Lemma map_same {A} (f : A -> A) l : Forall (fun x => f x = x) l -> map f l = l.
Proof. induction 1; cbn; congruence. Qed.
Lemma flat_forall {A B} (P : B -> Prop) (f : A -> list B) l : Forall P (flat_map f l) -> Forall (fun x => Forall P (f x)) l.
Proof. induction l; cbn; constructor; apply Forall_app in H as [? ?]; auto. Qed.
Lemma under {A} (P Q : A -> Prop) l : Forall (fun x => P x -> Q x) l -> Forall P l -> Forall Q l.
Proof. induction 1; inversion 1; subst; constructor; auto. Qed.

Lemma bare_same t : Forall (fun m => m_id m = "") (mounts_in t) -> bare t = t.
Proof.
  induction t as [t (I1 & I2 & I3 & I4 & I5 & I6)] using task_nested_ind. destruct t.
  cbn [mounts_in]. proj. cbn in I1, I2, I3, I4, I5, I6. intro H.
  apply Forall_app in H as [H0 H]. apply Forall_app in H as [H1 H]. apply Forall_app in H as [H2 H]. apply Forall_app in H as [H3 H].
  apply Forall_app in H as [H4 H]. apply Forall_app in H as [H5 H6].
  apply flat_forall in H1, H2, H3.
  rewrite (map_same bare t_pre (under _ _ _ I1 H1)), (map_same bare t_post (under _ _ _ I2 H2)), (map_same bare t_sidecars (under _ _ _ I3 H3)).
  rewrite (map_same bare_mount t_mounts)
    by (eapply Forall_impl; [|exact H0]; intros [? ? ? ? ?] E; cbn in E; subst; reflexivity).
  replace (match t_parallel with None => None | Some p => Some (mkParallel (map bare (p_tasks p)) (p_completions p)) end) with t_parallel
    by (destruct t_parallel as [[ts c]|]; [|reflexivity]; cbn; specialize (I4 _ eq_refl); apply flat_forall in H4; cbn in *;
        rewrite (map_same bare ts (under _ _ _ I4 H4)); reflexivity).
  replace (match t_each with None => None
     | Some e => Some (mkEach (e_var e) (e_list e) (bare (e_task e)) (e_size e) (e_completions e) (e_concurrency e) (e_index e)) end) with t_each
    by (destruct t_each as [[]|]; [|reflexivity]; cbn; specialize (I5 _ eq_refl); cbn in *; rewrite (I5 H5); reflexivity).
  replace (match t_subjob with None => None
     | Some s => Some (mkSubJob (s_id s) (s_name s) (s_description s) (map bare (s_tasks s)) (s_inputs s) (s_secrets s)
                         (s_autodelete s) (s_output s) (s_detached s) (s_webhooks s)) end) with t_subjob
    by (destruct t_subjob as [[]|]; [|reflexivity]; cbn; specialize (I6 _ eq_refl); cbn in *; apply flat_forall in H6;
        rewrite (map_same bare _ (under _ _ _ I6 H6)); reflexivity).
  reflexivity.
Qed.
Lemma flat_map_forall {A B} (P : B -> Prop) (f : A -> list B) l : Forall (fun x => Forall P (f x)) l -> Forall P (flat_map f l).
Proof. induction 1; cbn; [constructor|]. apply Forall_app; auto. Qed.
Lemma bare_mounts t : Forall (fun m => m_id m = "") (mounts_in (bare t)).
Proof.
  induction t as [t (I1 & I2 & I3 & I4 & I5 & I6)] using task_nested_ind. destruct t. proj. cbn [mounts_in]. proj.
  cbn in I1, I2, I3, I4, I5, I6.
  assert (M : forall l, Forall (fun t => Forall (fun m => m_id m = "") (mounts_in (bare t))) l ->
              Forall (fun m => m_id m = "") (flat_map mounts_in (map bare l))).
  { intros l H. apply flat_map_forall. rewrite Forall_map. exact H. }
  repeat (apply Forall_app; split); auto.
  - rewrite Forall_map. apply Forall_forall. reflexivity.
  - destruct t_parallel; [|constructor]. cbn. auto.
  - destruct t_each; [|constructor]. cbn. auto.
  - destruct t_subjob; [|constructor]. cbn. auto.
Qed.
Lemma bare_twice t : bare (bare t) = bare t.
Proof. apply bare_same, bare_mounts. Qed.

(** What is lost is lost before encoding. *)
Lemma o_arr_map {A} (e : A -> json) (f : A -> A) l : Forall (fun x => e (f x) = e x) l -> o_arr e (map f l) = o_arr e l.
Proof.
  intro H. assert (E : map e (map f l) = map e l) by (rewrite map_map; induction H; cbn; congruence).
  destruct l; [reflexivity|]. unfold o_arr. cbn [map] in *. now rewrite E.
Qed.
Lemma enc_bare t : enc_task (bare t) = enc_task t.
Proof.
  induction t as [t (I1 & I2 & I3 & I4 & I5 & I6)] using task_nested_ind. destruct t. cbn in I1, I2, I3, I4, I5, I6. proj.
  rewrite (o_arr_map _ _ _ I1), (o_arr_map _ _ _ I2), (o_arr_map _ _ _ I3).
  rewrite (o_arr_map enc_mount bare_mount) by (apply Forall_forall; reflexivity).
  destruct t_parallel as [p|]; [specialize (I4 _ eq_refl); cbn [p_tasks p_completions]; rewrite (o_arr_map _ _ _ I4)|];
  (destruct t_each as [e|]; [specialize (I5 _ eq_refl); cbn [e_var e_list e_task e_size e_completions e_concurrency e_index]; rewrite I5|]);
  (destruct t_subjob as [sj|]; [specialize (I6 _ eq_refl);
     cbn [s_id s_name s_description s_tasks s_inputs s_secrets s_autodelete s_output s_detached s_webhooks]; rewrite (o_arr_map _ _ _ I6)|]);
  reflexivity.
Qed.

Lemma rt_time0 t : d_time0 (Some (JTime t)) = Some t.
Proof. reflexivity. Qed.
Lemma rt_job n j : Forall (sends n) (j_tasks j) -> Forall (sends n) (j_execution j) -> dec_job n (enc_job j) = Some (bare_job j).
Proof.
  intros H1 H2. unfold dec_job, enc_job. apply fields_compact; [reflexivity|]. intros g G.
  do 6 next.
  next. { exact (rt_time0 _). }
  next. { rewrite (rt_ptr _ _ _ _ rt_user); [|intro; discriminate]. reflexivity. }
  do 3 next.
  next. { exact (rt_arr' _ _ _ _ H1). }
  next. { exact (rt_arr' _ _ _ _ H2). }
  next. { instantiate (1 := j_position j). reflexivity. }
  next.
  next. { exact (rt_ctx _). }
  do 4 next.
  next. { ptr rt_defaults. reflexivity. }
  next. { apply (rt_arr _ _ (fun x => x)). apply Forall_forall; intros; apply rt_webhook. }
  next. { apply (rt_arr _ _ public_permission). apply Forall_forall; intros; apply rt_permission. }
  next. { ptr rt_autodelete. reflexivity. }
  do 3 next.
  next. { ptr rt_schedule. reflexivity. }
  rewrite map_id. now destruct j.
Qed.

(* ------------------------------------------------------------------ *)
(** * Theorems *)
(** A task put on the wire is read back whole, whatever its nesting: only the ids of its mounts are missing. *)
Theorem C65_task_round_trip : forall t, exists n0, forall n, (n0 <= n)%nat -> dec_task n (enc_task t) = Some (bare t).
Proof. exact sent_total. Qed.
(** A task whose mounts have no id (as after a first trip, and as the API builds them) is read back exactly. *)
Theorem C65_task_exact : forall t, Forall (fun m => m_id m = "") (mounts_in t) ->
  exists n0, forall n, (n0 <= n)%nat -> dec_task n (enc_task t) = Some t.
Proof. intros t H. destruct (sent_total t) as [n0 S]. exists n0. intros n L. rewrite <- (bare_same t H) at 2. now apply S. Qed.
Theorem C65_second_trip_exact : forall t, exists n0, forall n, (n0 <= n)%nat -> dec_task n (enc_task (bare t)) = Some (bare t).
Proof. intro t. apply C65_task_exact, bare_mounts. Qed.
(** Two tasks look the same on the wire exactly when they differ in their mounts' ids only. *)
Theorem C65_task_injective : forall t u, enc_task t = enc_task u <-> bare t = bare u.
Proof.
  intros t u. split; intro E.
  - destruct (sent_total t) as [a A], (sent_total u) as [b B].
    specialize (A (a + b)%nat ltac:(lia)). specialize (B (a + b)%nat ltac:(lia)). unfold sends in *. congruence.
  - rewrite <- (enc_bare t), <- (enc_bare u). congruence.
Qed.
(** A job is read back whole, except for mount ids and password hashes. *)
Theorem C65_job_round_trip : forall j, exists n0, forall n, (n0 <= n)%nat -> dec_job n (enc_job j) = Some (bare_job j).
Proof.
  intro j. destruct (all_sent (j_tasks j)) as [a A], (all_sent (j_execution j)) as [b B]. exists (a + b)%nat. intros n L.
  apply rt_job; [apply (sent_more a)|apply (sent_more b)]; auto; lia.
Qed.
(** What a job says on the wire does not depend on any password hash: neither its creator's nor those in its permissions. *)
Definition forget_hashes (j : job) : job :=
  j <| j_createdby := option_map public (j_createdby j) |> <| j_permissions := map public_permission (j_permissions j) |>.
Theorem C65_no_password_hash : forall j j', forget_hashes j = forget_hashes j' -> enc_job j = enc_job j'.
Proof.
  assert (U : forall u, enc_user u = enc_user (public u)) by (intros []; reflexivity).
  assert (V : forall p, enc_permission p = enc_permission (public_permission p)).
  { intros [r [u|]]; unfold enc_permission; cbn; [rewrite <- U|]; reflexivity. }
  assert (W : forall j, enc_job j = enc_job (forget_hashes j)).
  { intro j. destruct j. unfold enc_job, forget_hashes, set. cbn -[compact enc_user enc_permission o_arr].
    replace (o_arr enc_permission (map public_permission j_permissions)) with (o_arr enc_permission j_permissions).
    2:{ destruct j_permissions as [|p l]; [reflexivity|]. cbn [o_arr map]. rewrite <- V, map_map, (map_ext _ _ V). reflexivity. }
    destruct j_createdby as [u|]; cbn [option_map o_ptr]; [rewrite <- U|]; reflexivity. }
  intros j j' E. rewrite (W j), (W j'), E. reflexivity.
Qed.

(** Non-vacuity: a job with nested tasks, a mount id and a password hash. *)
Definition zero_task : task :=
  mkTask noid noid noid 0 "" "" TCreated None None None None None [] [] "" "" None [] [] "" 0 "" [] [] [] [] [] noid None None "" "" ""
    "" None None None "" [] "" 0 0 None.
Definition zero_job : job :=
  mkJob noid noid "" "" [] JPending 0 None None None None [] [] 0 [] (mkCtx [] [] [] []) 0 "" "" "" None [] [] None None [] 0 None.
Definition ex_leaf : task := zero_task <| t_name := "leaf" |> <| t_mounts := [mkMount "m1" "volume" "" "/data" [("size", "1g")]] |>.
Definition ex_nested : task := zero_task <| t_id := 7%N |> <| t_name := "n" |> <| t_state := TRunning |> <| t_retry := Some (mkRetry 3 1) |>
  <| t_env := [("A", "1"); ("B", "")] |> <| t_pre := [ex_leaf] |>
  <| t_each := Some (mkEach "item" "{{ list }}" (zero_task <| t_parallel := Some (mkParallel [ex_leaf; zero_task] 1) |>) 2 0 0 1) |>.
Definition ex_user : user := mkUser 3%N "N" "u" "$2a$hash" "" (Some 5) true.
Definition ex_job : job := zero_job <| j_id := 9%N |> <| j_tasks := [ex_nested] |> <| j_createdby := Some ex_user |> <| j_position := 1 |>
  <| j_permissions := [mkPermission None (Some ex_user)] |>.
Example C65_nonvacuous :
  dec_task 4 (enc_task ex_nested) = Some (bare ex_nested) /\ bare ex_nested <> ex_nested /\ dec_task 2 (enc_task ex_nested) = None /\
  dec_job 4 (enc_job ex_job) = Some (bare_job ex_job) /\ bare_job ex_job <> ex_job /\ length (mounts_in ex_nested) = 2%nat.
Proof.
  repeat split; try (vm_compute; reflexivity); intro E.
  - apply (f_equal (fun t => map m_id (mounts_in t))) in E. vm_compute in E. discriminate.
  - apply (f_equal (fun j => option_map u_passhash (j_createdby j))) in E. vm_compute in E. discriminate.
Qed.
Print Assumptions C65_task_round_trip.
Print Assumptions C65_task_exact.
Print Assumptions C65_second_trip_exact.
Print Assumptions C65_task_injective.
Print Assumptions C65_job_round_trip.
Print Assumptions C65_no_password_hash.
