(** C66: what is stored is what is read.
    The PostgreSQL statements that create, update and read tasks and jobs, column by column:
    datastore/postgres/postgres.go:210-397,414-522,593-694,732-868, datastore/postgres/record.go:12-85,155-394,
    db/postgres/schema.go:75-172.
    Columns are bound to arguments by position, as in the SQL text; a row is read by column name, as sqlx does with db tags.
    Simplified: text is valid UTF-8, its length is counted in bytes; identifiers and times are values of their own (an
    identifier always fits varchar(32), a time keeps its precision); numeric(5,2) holds any progress; jsonb gives back the
    tree it was given. *)
From Verif Require Import Wire StateProofs.
Open Scope string_scope.
Open Scope list_scope.
Open Scope Z_scope.

(* ------------------------------------------------------------------ *)
(** * Values and columns *)
Inductive cell :=
| CNull | CId (i : id) | CText (s : string) | CInt (z : Z) | CTime (t : time) | CArr (l : list string) | CJson (j : json).
Inductive kind := KVarchar (n : nat) | KText | KInt | KNumeric | KTime | KArr | KJson.
Record column := mkCol { co_name : string; co_kind : kind; co_notnull : bool; co_default : cell }.
Definition row := list (string * cell).

(** PostgreSQL refuses the zero character in text and in jsonb. *)
Fixpoint nul_free (s : string) : bool :=
  match s with EmptyString => true | String c s => negb (Ascii.eqb c Ascii.zero) && nul_free s end.
Fixpoint json_free (j : json) : bool :=
  match j with
  | JStr s => nul_free s
  | JArr l => forallb json_free l
  | JObj l => forallb (fun p => nul_free (fst p) && json_free (snd p)) l
  | _ => true
  end.
(** a 32 bit integer *)
Definition int4 (z : Z) : bool := Z.leb (-2147483648) z && Z.ltb z 2147483648.
Definition fits (k : kind) (c : cell) : bool :=
  match k, c with
  | _, CNull => true
  | KVarchar n, CText s => nul_free s && Nat.leb (String.length s) n
  | KVarchar _, CId _ => true
  | KText, CText s => nul_free s
  | KInt, CInt z => int4 z
  | KNumeric, CInt _ => true
  | KTime, CTime _ => true
  | KArr, CArr l => forallb nul_free l
  | KJson, CJson j => json_free j
  | _, _ => false
  end.
Definition is_null (c : cell) : bool := match c with CNull => true | _ => false end.
Fixpoint bound (b : row) (k : string) : option cell :=
  match b with [] => None | (k', v) :: b => if String.eqb k' k then Some v else bound b k end.
Definition at_ (r : row) (k : string) : cell := match bound r k with Some v => v | None => CNull end.
(** types and not null constraints *)
Definition row_ok (schema : list column) (r : row) : bool :=
  forallb (fun c => fits (co_kind c) (at_ r (co_name c)) && (negb (co_notnull c) || negb (is_null (at_ r (co_name c))))) schema.
Definition known (schema : list column) (k : string) : bool := existsb (fun c => String.eqb (co_name c) k) schema.

(** insert into table (names) values (args): a column not named takes its default.  [None]: the statement is refused. *)
Definition insert (schema : list column) (names : list string) (args : list cell) : option row :=
  if Nat.eqb (length names) (length args) && forallb (known schema) names && distinct names
  then Some (map (fun c => (co_name c, match bound (combine names args) (co_name c) with Some v => v | None => co_default c end)) schema)
  else None.
(** update table set names = args *)
Definition update (r : row) (names : list string) (args : list cell) : row :=
  map (fun p => (fst p, match bound (combine names args) (fst p) with Some v => v | None => snd p end)) r.

(** Arguments.  A nil pointer, slice of strings or map is NULL (pq.StringArray; postgres.go:211-305); a nil slice of structs is
    the JSON null. *)
Definition c_time (t : option time) : cell := match t with Some t => CTime t | None => CNull end.
Definition c_arr (l : list string) : cell := match l with [] => CNull | _ => CArr l end.
Definition c_json (j : option json) : cell := match j with Some j => CJson j | None => CNull end.
Definition c_list {A} (f : A -> json) (l : list A) : cell := c_json (a_arr f l).
(** postgres.go:399-401 *)
Fixpoint sanitize (s : string) : string :=
  match s with EmptyString => EmptyString | String c s => if Ascii.eqb c Ascii.zero then sanitize s else String c (sanitize s) end.

(** Scanning: NULL into a string or an integer is an error (database/sql) *)
Definition q_id (c : cell) : option id := match c with CId i => Some i | _ => None end.
Definition q_text (c : cell) : option string := match c with CText s => Some s | _ => None end.
Definition q_int (c : cell) : option Z := match c with CInt z => Some z | _ => None end.
Definition q_time (c : cell) : option time := match c with CTime t => Some t | _ => None end.
Definition q_optime (c : cell) : option (option time) := match c with CTime t => Some (Some t) | CNull => Some None | _ => None end.
Definition q_arr (c : cell) : option (list string) := match c with CArr l => Some l | CNull => Some [] | _ => None end.
(** record.go:156-247: NULL leaves the zero value, other bytes go through json.Unmarshal *)
Definition q_json {A} (f : option json -> option A) (c : cell) : option A :=
  match c with CJson j => f (Some j) | CNull => f None | _ => None end.
Definition q_state {S} (l : list (string * S)) (c : cell) : option S := match c with CText s => d_state l (Some (JStr s)) | _ => None end.

(* ------------------------------------------------------------------ *)
(** * Tasks *)
(** schema.go:130-172 *)
Definition task_schema : list column :=
  [mkCol "id" (KVarchar 32) true CNull; mkCol "job_id" (KVarchar 32) true CNull; mkCol "position" KInt true CNull;
   mkCol "name" (KVarchar 256) false CNull; mkCol "state" (KVarchar 10) true CNull; mkCol "created_at" KTime true CNull;
   mkCol "scheduled_at" KTime false CNull; mkCol "started_at" KTime false CNull; mkCol "completed_at" KTime false CNull;
   mkCol "failed_at" KTime false CNull; mkCol "cmd" KArr false CNull; mkCol "entrypoint" KArr false CNull;
   mkCol "run_script" KText false CNull; mkCol "image" (KVarchar 256) false CNull; mkCol "registry" KJson false CNull;
   mkCol "env" KJson false CNull; mkCol "files_" KJson false CNull; mkCol "queue" (KVarchar 256) false CNull;
   mkCol "error_" KText false CNull; mkCol "pre_tasks" KJson false CNull; mkCol "post_tasks" KJson false CNull;
   mkCol "sidecars" KJson false CNull; mkCol "mounts" KJson false CNull; mkCol "node_id" (KVarchar 32) false CNull;
   mkCol "retry" KJson false CNull; mkCol "limits" KJson false CNull; mkCol "timeout" (KVarchar 8) false CNull;
   mkCol "result" KText false CNull; mkCol "var" (KVarchar 64) false CNull; mkCol "parallel" KJson false CNull;
   mkCol "parent_id" (KVarchar 32) false CNull; mkCol "each_" KJson false CNull; mkCol "description" KText false CNull;
   mkCol "subjob" KJson false CNull; mkCol "networks" KArr false CNull; mkCol "gpus" KText false CNull; mkCol "if_" KText false CNull;
   mkCol "tags" KArr false CNull; mkCol "priority" KInt false CNull; mkCol "workdir" (KVarchar 256) false CNull;
   mkCol "progress" KNumeric false (CInt 0)].

Definition enc_parallel (p : parallelT task) : json :=
  JObj (compact [("tasks", o_arr enc_task (p_tasks p)); ("completions", o_int (p_completions p))]).
Definition enc_each (e : eachT task) : json :=
  JObj (compact [("var", o_str (e_var e)); ("list", o_str (e_list e)); ("task", Some (enc_task (e_task e)));
                 ("size", o_int (e_size e)); ("completions", o_int (e_completions e)); ("concurrency", o_int (e_concurrency e)); ("index", o_int (e_index e))]).
Definition enc_subjob (s : subjobT task) : json :=
  JObj (compact [("id", o_id (s_id s)); ("name", o_str (s_name s)); ("description", o_str (s_description s));
                 ("tasks", o_arr enc_task (s_tasks s)); ("inputs", o_map (s_inputs s)); ("secrets", o_map (s_secrets s));
                 ("autoDelete", o_ptr enc_autodelete (s_autodelete s)); ("output", o_str (s_output s)); ("detached", o_bool (s_detached s));
                 ("webhooks", o_arr enc_webhook (s_webhooks s))]).

(** postgres.go:304-345 *)
Definition insert_task_columns : list string :=
  ["id"; "job_id"; "position"; "name"; "state"; "created_at"; "scheduled_at"; "started_at"; "completed_at"; "failed_at";
   "cmd"; "entrypoint"; "run_script"; "image"; "env"; "queue"; "error_"; "pre_tasks"; "post_tasks"; "mounts";
   "node_id"; "retry"; "limits"; "timeout"; "var"; "result"; "parallel"; "parent_id"; "each_"; "description";
   "subjob"; "networks"; "files_"; "registry"; "gpus"; "if_"; "tags"; "priority"; "workdir"; "sidecars"].
(** postgres.go:351-392 *)
Definition insert_task_args (t : task) : list cell :=
  [CId (t_id t); CId (t_job t); CInt (t_position t); CText (t_name t); CText (tstate_name (t_state t)); c_time (t_created t);
   c_time (t_scheduled t); c_time (t_started t); c_time (t_completed t); c_time (t_failed t);
   c_arr (t_cmd t); c_arr (t_entrypoint t); CText (t_run t); CText (t_image t); c_json (o_map (t_env t)); CText (t_queue t);
   CText (sanitize (t_error t)); c_list enc_task (t_pre t); c_list enc_task (t_post t); c_json (o_arr enc_mount (t_mounts t));
   CId (t_node t); c_json (o_ptr enc_retry (t_retry t)); c_json (o_ptr enc_limits (t_limits t)); CText (t_timeout t); CText (t_var t);
   CText (sanitize (t_result t)); c_json (o_ptr enc_parallel (t_parallel t)); CId (t_parent t); c_json (o_ptr enc_each (t_each t));
   CText (t_description t); c_json (o_ptr enc_subjob (t_subjob t)); c_arr (t_networks t); c_json (o_map (t_files t));
   c_json (o_ptr enc_registry (t_registry t)); CText (t_gpus t); CText (t_if t); c_arr (t_tags t); CInt (t_priority t);
   CText (t_workdir t); c_list enc_task (t_sidecars t)].
(** postgres.go:476-495 *)
Definition update_task_columns : list string :=
  ["position"; "state"; "scheduled_at"; "started_at"; "completed_at"; "failed_at"; "error_"; "node_id"; "result"; "each_"; "subjob";
   "parallel"; "limits"; "timeout"; "retry"; "queue"; "progress"; "priority"].
(** postgres.go:496-516 *)
Definition update_task_args (t : task) : list cell :=
  [CInt (t_position t); CText (tstate_name (t_state t)); c_time (t_scheduled t); c_time (t_started t); c_time (t_completed t);
   c_time (t_failed t); CText (sanitize (t_error t)); CId (t_node t); CText (sanitize (t_result t)); c_json (o_ptr enc_each (t_each t));
   c_json (o_ptr enc_subjob (t_subjob t)); c_json (o_ptr enc_parallel (t_parallel t)); c_json (o_ptr enc_limits (t_limits t));
   CText (t_timeout t); c_json (o_ptr enc_retry (t_retry t)); CText (t_queue t); CInt (t_progress t); CInt (t_priority t)].

(** record.go:12-55 (which column goes where), 155-291 *)
Definition to_task (n : nat) (r : row) : option task :=
  let g := at_ r in let D := dec_task n in
  let? v1 := q_id (g "id") in let? v2 := q_id (g "job_id") in let? v3 := q_id (g "parent_id") in let? v4 := q_int (g "position") in
  let? v5 := q_text (g "name") in let? v6 := q_text (g "description") in let? v7 := q_state tstates (g "state") in
  let? v8 := q_time (g "created_at") in let? v9 := q_optime (g "scheduled_at") in let? v10 := q_optime (g "started_at") in
  let? v11 := q_optime (g "completed_at") in let? v12 := q_optime (g "failed_at") in
  let? v13 := q_arr (g "cmd") in let? v14 := q_arr (g "entrypoint") in let? v15 := q_text (g "run_script") in let? v16 := q_text (g "image") in
  let? v17 := q_json (d_ptr dec_registry) (g "registry") in let? v18 := q_json d_map (g "env") in let? v19 := q_json d_map (g "files_") in
  let? v20 := q_text (g "queue") in let? v22 := q_text (g "error_") in
  let? v23 := q_json (d_arr D) (g "pre_tasks") in let? v24 := q_json (d_arr D) (g "post_tasks") in let? v25 := q_json (d_arr D) (g "sidecars") in
  let? v26 := q_json (d_arr dec_mount) (g "mounts") in let? v27 := q_arr (g "networks") in let? v28 := q_id (g "node_id") in
  let? v29 := q_json (d_ptr dec_retry) (g "retry") in let? v30 := q_json (d_ptr dec_limits) (g "limits") in let? v31 := q_text (g "timeout") in
  let? v32 := q_text (g "result") in let? v33 := q_text (g "var") in let? v34 := q_text (g "if_") in
  let? v35 := q_json (d_ptr (dec_parallel D)) (g "parallel") in let? v36 := q_json (d_ptr (dec_each D)) (g "each_") in
  let? v37 := q_json (d_ptr (dec_subjob D)) (g "subjob") in
  let? v38 := q_text (g "gpus") in let? v39 := q_arr (g "tags") in let? v40 := q_text (g "workdir") in let? v41 := q_int (g "priority") in
  let? v42 := q_int (g "progress") in
  Some (mkTask v1 v2 v3 v4 v5 v6 v7 (Some v8) v9 v10 v11 v12 v13 v14 v15 v16 v17 v18 v19 v20 0 v22 v23 v24 v25 v26 v27 v28 v29 v30
               v31 v32 v33 v34 v35 v36 v37 v38 v39 v40 v41 v42 None).

Definition is_row (i : id) (r : row) : bool := match at_ r "id" with CId j => N.eqb j i | _ => false end.
(** CreateTask, postgres.go:210-397, with the primary key and the reference to jobs (schema.go:131-132) *)
Definition create_task (jobs : list id) (T : list row) (t : task) : option (list row) :=
  let? r := insert task_schema insert_task_columns (insert_task_args t) in
  if row_ok task_schema r && negb (existsb (is_row (t_id t)) T) && existsb (N.eqb (t_job t)) jobs then Some (T ++ [r]) else None.
(** GetTaskByID, postgres.go:403-412 *)
Definition get_task (n : nat) (T : list row) (i : id) : option task :=
  let? r := find (is_row i) T in to_task n r.
(** UpdateTask, postgres.go:414-522; the row written is the one of the modified task's id *)
Definition update_task (n : nat) (T : list row) (i : id) (modify : task -> option task) : option (list row) :=
  let? u := get_task n T i in
  let? u' := modify u in
  let T' := map (fun r => if is_row (t_id u') r then update r update_task_columns (update_task_args u') else r) T in
  if forallb (row_ok task_schema) T' then Some T' else None.

(* ------------------------------------------------------------------ *)
(** * Specification (tasks) *)
(** What of a created task can be read back: not its redelivery count, progress and probe, nor mount ids, nor the zero
    characters of its error and result. *)
Definition stored (t : task) : task :=
  db_task (bare t) <| t_error := sanitize (t_error t) |> <| t_result := sanitize (t_result t) |>.
(** What an update may change: the rest stays as in [u]. *)
Definition merge (u u' : task) : task :=
  let v := bare u' in
  u <| t_position := t_position v |> <| t_state := t_state v |> <| t_scheduled := t_scheduled v |> <| t_started := t_started v |>
    <| t_completed := t_completed v |> <| t_failed := t_failed v |> <| t_error := sanitize (t_error v) |> <| t_node := t_node v |>
    <| t_result := sanitize (t_result v) |> <| t_each := t_each v |> <| t_subjob := t_subjob v |> <| t_parallel := t_parallel v |>
    <| t_limits := t_limits v |> <| t_timeout := t_timeout v |> <| t_retry := t_retry v |> <| t_queue := t_queue v |>
    <| t_progress := t_progress v |> <| t_priority := t_priority v |>.
Definition short (n : nat) (s : string) : Prop := nul_free s = true /\ (String.length s <= n)%nat.
Definition clean (s : string) : Prop := nul_free s = true.
(** The tasks the table can hold. *)
Record storable (t : task) : Prop := mkStorable {
  st_created : t_created t <> None;
  st_short : short 256 (t_name t) /\ short 256 (t_image t) /\ short 256 (t_queue t) /\ short 256 (t_workdir t) /\ short 64 (t_var t) /\ short 8 (t_timeout t);
  st_text : clean (t_description t) /\ clean (t_run t) /\ clean (t_gpus t) /\ clean (t_if t);
  st_lists : Forall clean (t_cmd t) /\ Forall clean (t_entrypoint t) /\ Forall clean (t_networks t) /\ Forall clean (t_tags t);
  st_ints : int4 (t_position t) = true /\ int4 (t_priority t) = true;
  st_maps : (forall k v, In (k, v) (t_env t) \/ In (k, v) (t_files t) -> clean k /\ clean v);
  st_nested : Forall (fun x => json_free (enc_task x) = true) (t_pre t ++ t_post t ++ t_sidecars t);
  st_mounts : Forall (fun m => json_free (enc_mount m) = true) (t_mounts t);
  st_registry : match t_registry t with Some x => json_free (enc_registry x) = true | None => True end;
  st_limits : match t_limits t with Some x => json_free (enc_limits x) = true | None => True end;
  st_parallel : match t_parallel t with Some x => json_free (enc_parallel x) = true | None => True end;
  st_each : match t_each t with Some x => json_free (enc_each x) = true | None => True end;
  st_subjob : match t_subjob t with Some x => json_free (enc_subjob x) = true | None => True end }.

(* ------------------------------------------------------------------ *)
(** * Proofs (tasks) *)
(** the row that holds exactly the task [t] *)
Definition row_of (t : task) : row :=
  [("id", CId (t_id t));
   ("job_id", CId (t_job t));
   ("position", CInt (t_position t));
   ("name", CText (t_name t));
   ("state", CText (tstate_name (t_state t)));
   ("created_at", c_time (t_created t));
   ("scheduled_at", c_time (t_scheduled t));
   ("started_at", c_time (t_started t));
   ("completed_at", c_time (t_completed t));
   ("failed_at", c_time (t_failed t));
   ("cmd", c_arr (t_cmd t));
   ("entrypoint", c_arr (t_entrypoint t));
   ("run_script", CText (t_run t));
   ("image", CText (t_image t));
   ("registry", c_json (o_ptr enc_registry (t_registry t)));
   ("env", c_json (o_map (t_env t)));
   ("files_", c_json (o_map (t_files t)));
   ("queue", CText (t_queue t));
   ("error_", CText (t_error t));
   ("pre_tasks", c_list enc_task (t_pre t));
   ("post_tasks", c_list enc_task (t_post t));
   ("sidecars", c_list enc_task (t_sidecars t));
   ("mounts", c_json (o_arr enc_mount (t_mounts t)));
   ("node_id", CId (t_node t));
   ("retry", c_json (o_ptr enc_retry (t_retry t)));
   ("limits", c_json (o_ptr enc_limits (t_limits t)));
   ("timeout", CText (t_timeout t));
   ("result", CText (t_result t));
   ("var", CText (t_var t));
   ("parallel", c_json (o_ptr enc_parallel (t_parallel t)));
   ("parent_id", CId (t_parent t));
   ("each_", c_json (o_ptr enc_each (t_each t)));
   ("description", CText (t_description t));
   ("subjob", c_json (o_ptr enc_subjob (t_subjob t)));
   ("networks", c_arr (t_networks t));
   ("gpus", CText (t_gpus t));
   ("if_", CText (t_if t));
   ("tags", c_arr (t_tags t));
   ("priority", CInt (t_priority t));
   ("workdir", CText (t_workdir t));
   ("progress", CInt (t_progress t))].

Lemma insert_generic v1 v2 v3 v4 v5 v6 v7 v8 v9 v10 v11 v12 v13 v14 v15 v16 v17 v18 v19 v20 v21 v22 v23 v24 v25 v26 v27 v28 v29 v30
  v31 v32 v33 v34 v35 v36 v37 v38 v39 v40 :
  insert task_schema insert_task_columns [v1; v2; v3; v4; v5; v6; v7; v8; v9; v10; v11; v12; v13; v14; v15; v16; v17; v18; v19; v20; v21; v22;
    v23; v24; v25; v26; v27; v28; v29; v30; v31; v32; v33; v34; v35; v36; v37; v38; v39; v40] =
  Some [("id", v1); ("job_id", v2); ("position", v3); ("name", v4); ("state", v5); ("created_at", v6); ("scheduled_at", v7); ("started_at", v8); ("completed_at", v9); ("failed_at", v10); ("cmd", v11); ("entrypoint", v12); ("run_script", v13); ("image", v14); ("registry", v34); ("env", v15); ("files_", v33); ("queue", v16); ("error_", v17); ("pre_tasks", v18); ("post_tasks", v19); ("sidecars", v40); ("mounts", v20); ("node_id", v21); ("retry", v22); ("limits", v23); ("timeout", v24); ("result", v26); ("var", v25); ("parallel", v27); ("parent_id", v28); ("each_", v29); ("description", v30); ("subjob", v31); ("networks", v32); ("gpus", v35); ("if_", v36); ("tags", v37); ("priority", v38); ("workdir", v39); ("progress", CInt 0)].
Proof. reflexivity. Qed.
Lemma update_generic a1 a2 a3 a4 a5 a6 a7 a8 a9 a10 a11 a12 a13 a14 a15 a16 a17 a18 a19 a20 a21 a22 a23 a24 a25 a26 a27 a28 a29 a30 a31 a32 a33 a34 a35 a36 a37 a38 a39 a40 a41 v1 v2 v3 v4 v5 v6 v7 v8 v9 v10 v11 v12 v13 v14 v15 v16 v17 v18 :
  update [("id", a1); ("job_id", a2); ("position", a3); ("name", a4); ("state", a5); ("created_at", a6); ("scheduled_at", a7); ("started_at", a8); ("completed_at", a9); ("failed_at", a10); ("cmd", a11); ("entrypoint", a12); ("run_script", a13); ("image", a14); ("registry", a15); ("env", a16); ("files_", a17); ("queue", a18); ("error_", a19); ("pre_tasks", a20); ("post_tasks", a21); ("sidecars", a22); ("mounts", a23); ("node_id", a24); ("retry", a25); ("limits", a26); ("timeout", a27); ("result", a28); ("var", a29); ("parallel", a30); ("parent_id", a31); ("each_", a32); ("description", a33); ("subjob", a34); ("networks", a35); ("gpus", a36); ("if_", a37); ("tags", a38); ("priority", a39); ("workdir", a40); ("progress", a41)]
    update_task_columns [v1; v2; v3; v4; v5; v6; v7; v8; v9; v10; v11; v12; v13; v14; v15; v16; v17; v18] =
  [("id", a1); ("job_id", a2); ("position", v1); ("name", a4); ("state", v2); ("created_at", a6); ("scheduled_at", v3); ("started_at", v4); ("completed_at", v5); ("failed_at", v6); ("cmd", a11); ("entrypoint", a12); ("run_script", a13); ("image", a14); ("registry", a15); ("env", a16); ("files_", a17); ("queue", v16); ("error_", v7); ("pre_tasks", a20); ("post_tasks", a21); ("sidecars", a22); ("mounts", a23); ("node_id", v8); ("retry", v15); ("limits", v13); ("timeout", v14); ("result", v9); ("var", a29); ("parallel", v12); ("parent_id", a31); ("each_", v10); ("description", a33); ("subjob", v11); ("networks", a35); ("gpus", a36); ("if_", a37); ("tags", a38); ("priority", v18); ("workdir", a40); ("progress", v17)].
Proof. reflexivity. Qed.

Lemma insert_row t : insert task_schema insert_task_columns (insert_task_args t) =
  Some (row_of (t <| t_error := sanitize (t_error t) |> <| t_result := sanitize (t_result t) |> <| t_progress := 0 |>)).
Proof. unfold insert_task_args. rewrite insert_generic. destruct t. reflexivity. Qed.
Definition merged (u u' : task) : task :=
  u <| t_position := t_position u' |> <| t_state := t_state u' |> <| t_scheduled := t_scheduled u' |> <| t_started := t_started u' |>
    <| t_completed := t_completed u' |> <| t_failed := t_failed u' |> <| t_error := sanitize (t_error u') |> <| t_node := t_node u' |>
    <| t_result := sanitize (t_result u') |> <| t_each := t_each u' |> <| t_subjob := t_subjob u' |> <| t_parallel := t_parallel u' |>
    <| t_limits := t_limits u' |> <| t_timeout := t_timeout u' |> <| t_retry := t_retry u' |> <| t_queue := t_queue u' |>
    <| t_progress := t_progress u' |> <| t_priority := t_priority u' |>.
Lemma update_row u u' : update (row_of u) update_task_columns (update_task_args u') = row_of (merged u u').
Proof. unfold row_of, update_task_args. rewrite update_generic. destruct u, u'. reflexivity. Qed.

Lemma rq_time t : q_optime (c_time t) = Some t.
Proof. now destruct t. Qed.
Lemma rq_arr l : q_arr (c_arr l) = Some l.
Proof. now destruct l. Qed.
Lemma rq_tstate s : q_state tstates (CText (tstate_name s)) = Some s.
Proof. now destruct s. Qed.
Lemma rq_json {A} (f : option json -> option A) j r : f j = Some r -> q_json f (c_json j) = Some r.
Proof. intro H. destruct j; exact H. Qed.

(** the tasks nested in [t] are decoded at depth [n] *)
Definition nested_at (n : nat) (t : task) : Prop :=
  Forall (sends n) (t_pre t) /\ Forall (sends n) (t_post t) /\ Forall (sends n) (t_sidecars t) /\
  (forall p, t_parallel t = Some p -> Forall (sends n) (p_tasks p)) /\
  (forall e, t_each t = Some e -> sends n (e_task e)) /\
  (forall s, t_subjob t = Some s -> Forall (sends n) (s_tasks s)).
Lemma nested_total t : exists n0, forall n, (n0 <= n)%nat -> nested_at n t.
Proof.
  destruct (all_sent (t_pre t)) as [a A], (all_sent (t_post t)) as [b B], (all_sent (t_sidecars t)) as [c C].
  destruct (all_sent (match t_parallel t with Some p => p_tasks p | None => [] end)) as [d D].
  destruct (all_sent (match t_each t with Some p => [e_task p] | None => [] end)) as [e E].
  destruct (all_sent (match t_subjob t with Some p => s_tasks p | None => [] end)) as [f F].
  exists (a + b + c + d + e + f)%nat. intros n L. repeat split.
  - apply (sent_more a); [lia|exact A].
  - apply (sent_more b); [lia|exact B].
  - apply (sent_more c); [lia|exact C].
  - intros p P. rewrite P in D. apply (sent_more d); [lia|exact D].
  - intros p P. rewrite P in E. inversion E; subst. apply H1. lia.
  - intros p P. rewrite P in F. apply (sent_more f); [lia|exact F].
Qed.

(** what is read of the row of [t] *)
Definition kept (t : task) : task := bare t <| t_redelivered := 0 |> <| t_probe := None |>.

Lemma at_bound (r : row) k v : bound r k = Some v -> at_ r k = v.
Proof. unfold at_. now intros ->. Qed.
Ltac rfield := match goal with G : forall k, _ k = at_ _ k |- ?q (_ ?k) = Some _ =>
    rewrite G; clear G; erewrite at_bound by reflexivity end;
  first [reflexivity | apply rq_time | apply rq_arr | apply rq_tstate | apply rq_json].
Ltac rnext := eapply bind_some; [rfield|].
Lemma read_row n t c : t_created t = Some c -> nested_at n t -> to_task n (row_of t) = Some (kept t).
Proof.
  intros Hc (H1 & H2 & H3 & H4 & H5 & H6). unfold to_task. cbv zeta.
  assert (G : forall k, at_ (row_of t) k = at_ (row_of t) k) by reflexivity.
  set (g := at_ (row_of t)) in * |- *.
  assert (G' : forall k, g k = at_ (row_of t) k) by reflexivity. clear G. rename G' into G. clearbody g.
  do 7 rnext.
  eapply bind_some. { rewrite G; erewrite at_bound by reflexivity. rewrite Hc. reflexivity. }
  do 8 rnext.
  rnext. { ptr rt_registry. reflexivity. }
  rnext. { apply rt_map. }
  rnext. { apply rt_map. }
  do 2 rnext.
  rnext. { exact (rt_arr' _ _ _ _ H1). }
  rnext. { exact (rt_arr' _ _ _ _ H2). }
  rnext. { exact (rt_arr' _ _ _ _ H3). }
  rnext. { apply (rt_arr _ _ bare_mount). apply Forall_forall; intros; apply rt_mount. }
  do 2 rnext.
  rnext. { ptr rt_retry. reflexivity. }
  rnext. { ptr rt_limits. reflexivity. }
  do 4 rnext.
  rnext. { instantiate (1 := match t_parallel t with None => None | Some p => Some (mkParallel (map bare (p_tasks p)) (p_completions p)) end).
    destruct (t_parallel t) as [p|]; [|reflexivity]. cbn [d_ptr o_ptr option_map]. unfold enc_parallel. rewrite (rt_parallel n p (H4 p eq_refl)). reflexivity. }
  rnext. { instantiate (1 := match t_each t with None => None
     | Some e => Some (mkEach (e_var e) (e_list e) (bare (e_task e)) (e_size e) (e_completions e) (e_concurrency e) (e_index e)) end).
    destruct (t_each t) as [p|]; [|reflexivity]. cbn [d_ptr o_ptr option_map]. unfold enc_each. rewrite (rt_each n p (H5 p eq_refl)). reflexivity. }
  rnext. { instantiate (1 := match t_subjob t with None => None
     | Some s => Some (mkSubJob (s_id s) (s_name s) (s_description s) (map bare (s_tasks s)) (s_inputs s) (s_secrets s)
                         (s_autodelete s) (s_output s) (s_detached s) (s_webhooks s)) end).
    destruct (t_subjob t) as [p|]; [|reflexivity]. cbn [d_ptr o_ptr option_map]. unfold enc_subjob. rewrite (rt_subjob n p (H6 p eq_refl)). reflexivity. }
  do 5 rnext.
  unfold kept. destruct t. cbn in Hc. subst. reflexivity.
Qed.

(** ** When a row is accepted *)
Lemma nul_app s : nul_free (sanitize s) = true.
Proof. induction s as [|c s IH]; cbn; auto. destruct (Ascii.eqb c Ascii.zero) eqn:E; auto. cbn. now rewrite E, IH. Qed.
Lemma sanitize_id s : nul_free s = true -> sanitize s = s.
Proof. induction s as [|c s IH]; cbn; auto. destruct (Ascii.eqb c Ascii.zero); cbn; [discriminate|]. intro H. now rewrite IH. Qed.
Lemma fits_varchar n s : fits (KVarchar n) (CText s) = true <-> short n s.
Proof. cbn. rewrite andb_true_iff, Nat.leb_le. reflexivity. Qed.
Lemma fits_arr l : fits KArr (c_arr l) = true <-> Forall clean l.
Proof.
  rewrite Forall_forall. unfold clean. destruct l as [|x l]; [cbn; split; [intros _ ? []|auto]|].
  change (fits KArr (c_arr (x :: l))) with (forallb nul_free (x :: l)). apply forallb_forall.
Qed.
Lemma fits_map m : fits KJson (c_json (o_map m)) = true <-> (forall k v, In (k, v) m -> clean k /\ clean v).
Proof.
  unfold clean. destruct m as [|p m]; [cbn; split; [intros _ ? ? []|auto]|].
  change (fits KJson (c_json (o_map (p :: m)))) with
    (forallb (fun p => nul_free (fst p) && json_free (snd p)) (map (fun p => (fst p, JStr (snd p))) (p :: m))).
  rewrite forallb_forall. split.
  - intros H k v Hin. specialize (H (k, JStr v)). cbn [fst snd json_free] in H. apply andb_prop, H.
    apply in_map_iff. exists (k, v). auto.
  - intros H x Hx. apply in_map_iff in Hx as ([k v] & <- & Hx). cbn. apply andb_true_iff. auto.
Qed.
Lemma fits_list {A} (f : A -> json) l : fits KJson (c_list f l) = true <-> Forall (fun x => json_free (f x) = true) l.
Proof.
  rewrite Forall_forall. destruct l as [|x l]; [cbn; split; [intros _ ? []|auto]|].
  change (fits KJson (c_list f (x :: l))) with (forallb json_free (map f (x :: l))).
  rewrite forallb_forall. split.
  - intros H y Hy. apply H, in_map, Hy.
  - intros H y Hy. apply in_map_iff in Hy as (z & <- & Hz). auto.
Qed.
Lemma fits_arr_o {A} (f : A -> json) l : fits KJson (c_json (o_arr f l)) = true <-> Forall (fun x => json_free (f x) = true) l.
Proof. rewrite <- fits_list. destruct l; reflexivity. Qed.
Lemma fits_ptr {A} (f : A -> json) x : fits KJson (c_json (o_ptr f x)) = true <-> match x with Some x => json_free (f x) = true | None => True end.
Proof. destruct x; cbn; split; auto. Qed.
Lemma fits_retry x : fits KJson (c_json (o_ptr enc_retry x)) = true.
Proof. apply fits_ptr. destruct x as [[a b]|]; auto. unfold enc_retry, o_int. cbn. destruct (Z.eqb a 0), (Z.eqb b 0); reflexivity. Qed.
Lemma fits_time t : fits KTime (c_time t) = true.
Proof. now destruct t. Qed.
Lemma fits_state s : fits (KVarchar 10) (CText (tstate_name s)) = true.
Proof. now destruct s. Qed.

(** errors and results come cleaned *)
Definition washed (t : task) : Prop := clean (t_error t) /\ clean (t_result t).
Lemma row_checks t : row_ok task_schema (row_of t) = forallb (fun b => b)
  [fits (KVarchar 32) (CId (t_id t)) && (negb true || negb (is_null (CId (t_id t))));
   fits (KVarchar 32) (CId (t_job t)) && (negb true || negb (is_null (CId (t_job t))));
   fits KInt (CInt (t_position t)) && (negb true || negb (is_null (CInt (t_position t))));
   fits (KVarchar 256) (CText (t_name t)) && (negb false || negb (is_null (CText (t_name t))));
   fits (KVarchar 10) (CText (tstate_name (t_state t))) && (negb true || negb (is_null (CText (tstate_name (t_state t)))));
   fits KTime (c_time (t_created t)) && (negb true || negb (is_null (c_time (t_created t))));
   fits KTime (c_time (t_scheduled t)) && (negb false || negb (is_null (c_time (t_scheduled t))));
   fits KTime (c_time (t_started t)) && (negb false || negb (is_null (c_time (t_started t))));
   fits KTime (c_time (t_completed t)) && (negb false || negb (is_null (c_time (t_completed t))));
   fits KTime (c_time (t_failed t)) && (negb false || negb (is_null (c_time (t_failed t))));
   fits KArr (c_arr (t_cmd t)) && (negb false || negb (is_null (c_arr (t_cmd t))));
   fits KArr (c_arr (t_entrypoint t)) && (negb false || negb (is_null (c_arr (t_entrypoint t))));
   fits KText (CText (t_run t)) && (negb false || negb (is_null (CText (t_run t))));
   fits (KVarchar 256) (CText (t_image t)) && (negb false || negb (is_null (CText (t_image t))));
   fits KJson (c_json (o_ptr enc_registry (t_registry t))) && (negb false || negb (is_null (c_json (o_ptr enc_registry (t_registry t)))));
   fits KJson (c_json (o_map (t_env t))) && (negb false || negb (is_null (c_json (o_map (t_env t)))));
   fits KJson (c_json (o_map (t_files t))) && (negb false || negb (is_null (c_json (o_map (t_files t)))));
   fits (KVarchar 256) (CText (t_queue t)) && (negb false || negb (is_null (CText (t_queue t))));
   fits KText (CText (t_error t)) && (negb false || negb (is_null (CText (t_error t))));
   fits KJson (c_list enc_task (t_pre t)) && (negb false || negb (is_null (c_list enc_task (t_pre t))));
   fits KJson (c_list enc_task (t_post t)) && (negb false || negb (is_null (c_list enc_task (t_post t))));
   fits KJson (c_list enc_task (t_sidecars t)) && (negb false || negb (is_null (c_list enc_task (t_sidecars t))));
   fits KJson (c_json (o_arr enc_mount (t_mounts t))) && (negb false || negb (is_null (c_json (o_arr enc_mount (t_mounts t)))));
   fits (KVarchar 32) (CId (t_node t)) && (negb false || negb (is_null (CId (t_node t))));
   fits KJson (c_json (o_ptr enc_retry (t_retry t))) && (negb false || negb (is_null (c_json (o_ptr enc_retry (t_retry t)))));
   fits KJson (c_json (o_ptr enc_limits (t_limits t))) && (negb false || negb (is_null (c_json (o_ptr enc_limits (t_limits t)))));
   fits (KVarchar 8) (CText (t_timeout t)) && (negb false || negb (is_null (CText (t_timeout t))));
   fits KText (CText (t_result t)) && (negb false || negb (is_null (CText (t_result t))));
   fits (KVarchar 64) (CText (t_var t)) && (negb false || negb (is_null (CText (t_var t))));
   fits KJson (c_json (o_ptr enc_parallel (t_parallel t))) && (negb false || negb (is_null (c_json (o_ptr enc_parallel (t_parallel t)))));
   fits (KVarchar 32) (CId (t_parent t)) && (negb false || negb (is_null (CId (t_parent t))));
   fits KJson (c_json (o_ptr enc_each (t_each t))) && (negb false || negb (is_null (c_json (o_ptr enc_each (t_each t)))));
   fits KText (CText (t_description t)) && (negb false || negb (is_null (CText (t_description t))));
   fits KJson (c_json (o_ptr enc_subjob (t_subjob t))) && (negb false || negb (is_null (c_json (o_ptr enc_subjob (t_subjob t)))));
   fits KArr (c_arr (t_networks t)) && (negb false || negb (is_null (c_arr (t_networks t))));
   fits KText (CText (t_gpus t)) && (negb false || negb (is_null (CText (t_gpus t))));
   fits KText (CText (t_if t)) && (negb false || negb (is_null (CText (t_if t))));
   fits KArr (c_arr (t_tags t)) && (negb false || negb (is_null (c_arr (t_tags t))));
   fits KInt (CInt (t_priority t)) && (negb false || negb (is_null (CInt (t_priority t))));
   fits (KVarchar 256) (CText (t_workdir t)) && (negb false || negb (is_null (CText (t_workdir t))));
   fits KNumeric (CInt (t_progress t)) && (negb false || negb (is_null (CInt (t_progress t))))].
Proof. reflexivity. Qed.
Lemma row_accepted t : washed t -> row_ok task_schema (row_of t) = true <-> storable t.
Proof.
  intros [We Wr]. rewrite row_checks. cbn [forallb negb orb is_null]. rewrite !andb_true_r.
  rewrite !andb_true_iff, !fits_time, !fits_retry, !fits_varchar, !fits_arr, !fits_map, !fits_list, !fits_arr_o, !fits_ptr.
  split.
  - intro H. repeat match goal with H : _ /\ _ |- _ => destruct H end.
    constructor; auto 10.
    + intro E. match goal with H : negb (is_null (c_time (t_created t))) = true |- _ => rewrite E in H; discriminate H end.
    + intros k v [K|K]; auto.
    + rewrite !Forall_app. auto.
  - intros [C1 C2 C3 C4 C5 C6 C7 C8 C9 C10 C11 C12 C13]. rewrite !Forall_app in C7.
    repeat match goal with H : _ /\ _ |- _ => destruct H end.
    assert (S : short 10 (tstate_name (t_state t))) by (destruct (t_state t); (split; [reflexivity|cbn; lia])).
    assert (N : negb (is_null (c_time (t_created t))) = true) by (destruct (t_created t); [reflexivity|congruence]).
    repeat match goal with |- _ /\ _ => split end; try assumption; try reflexivity; intros; eapply C6; eauto.
Qed.

(* ------------------------------------------------------------------ *)
(** * Tables of tasks *)
(** a task as the table holds it *)
Record held (t : task) : Prop := mkHeld {
  hd_red : t_redelivered t = 0; hd_probe : t_probe t = None;
  hd_mounts : Forall (fun m => m_id m = "") (mounts_in t);
  hd_washed : washed t;
  hd_ok : storable t }.
(** The rows [T] are the tasks [ts], in order, with distinct ids. *)
Record represents (T : list row) (ts : list task) : Prop := mkRep {
  rp_rows : T = map row_of ts; rp_ids : NoDup (map t_id ts); rp_held : Forall held ts }.

Lemma is_row_of i t : is_row i (row_of t) = N.eqb (t_id t) i.
Proof. reflexivity. Qed.
Lemma kept_held t : held t -> kept t = t.
Proof. intros [H1 H2 H3 _ _]. unfold kept. rewrite (bare_same t H3). destruct t; cbn in *; subst. reflexivity. Qed.
Lemma bare_arr (l : list task) : a_arr enc_task (map bare l) = a_arr enc_task l.
Proof.
  unfold a_arr. destruct l; [reflexivity|]. cbn [map]. do 2 f_equal. rewrite enc_bare, map_map.
  f_equal. apply map_ext, enc_bare.
Qed.
Lemma bare_oarr (l : list task) : o_arr enc_task (map bare l) = o_arr enc_task l.
Proof. apply o_arr_map, Forall_forall. intros; apply enc_bare. Qed.
Lemma row_of_bare t : row_of (bare t) = row_of t.
Proof.
  destruct t. unfold row_of, c_list. proj. rewrite !bare_arr.
  rewrite (o_arr_map enc_mount bare_mount) by (apply Forall_forall; reflexivity).
  replace (o_ptr enc_parallel match t_parallel with None => None | Some p => Some (mkParallel (map bare (p_tasks p)) (p_completions p)) end)
    with (o_ptr enc_parallel t_parallel)
    by (destruct t_parallel; [|reflexivity]; cbn [o_ptr option_map]; unfold enc_parallel; cbn [p_tasks p_completions]; now rewrite bare_oarr).
  replace (o_ptr enc_each match t_each with None => None
     | Some e => Some (mkEach (e_var e) (e_list e) (bare (e_task e)) (e_size e) (e_completions e) (e_concurrency e) (e_index e)) end)
    with (o_ptr enc_each t_each)
    by (destruct t_each; [|reflexivity]; cbn [o_ptr option_map]; unfold enc_each; cbn [e_var e_list e_task e_size e_completions e_concurrency e_index];
        now rewrite enc_bare).
  replace (o_ptr enc_subjob match t_subjob with None => None
     | Some s => Some (mkSubJob (s_id s) (s_name s) (s_description s) (map bare (s_tasks s)) (s_inputs s) (s_secrets s)
                         (s_autodelete s) (s_output s) (s_detached s) (s_webhooks s)) end)
    with (o_ptr enc_subjob t_subjob)
    by (destruct t_subjob; [|reflexivity]; cbn [o_ptr option_map]; unfold enc_subjob;
        cbn [s_id s_name s_description s_tasks s_inputs s_secrets s_autodelete s_output s_detached s_webhooks]; now rewrite bare_oarr).
  reflexivity.
Qed.
Lemma row_stored t : insert task_schema insert_task_columns (insert_task_args t) = Some (row_of (stored t)).
Proof.
  rewrite insert_row. f_equal. rewrite <- row_of_bare. destruct t. reflexivity.
Qed.
Lemma storable_stored t : storable (stored t) <-> storable t.
Proof.
  set (t1 := t <| t_error := sanitize (t_error t) |> <| t_result := sanitize (t_result t) |> <| t_progress := 0 |>).
  assert (R : row_of (stored t) = row_of t1) by (unfold t1; rewrite <- (row_of_bare (_ <| t_progress := 0 |>)); destruct t; reflexivity).
  assert (W1 : washed (stored t)) by (split; apply nul_app).
  assert (W2 : washed t1) by (split; apply nul_app).
  rewrite <- (row_accepted _ W1), R, (row_accepted _ W2). unfold t1. destruct t. split; intros []; constructor; assumption.
Qed.
Lemma held_stored t : storable t -> held (stored t).
Proof.
  intro S. constructor; [reflexivity|reflexivity| |split; apply nul_app|now apply storable_stored].
  pose proof (bare_mounts t) as H. unfold stored, db_task. destruct t. exact H.
Qed.
Lemma bare_merged u u' : bare (merged u u') = merge (bare u) u'.
Proof. destruct u, u'. reflexivity. Qed.
Lemma merge_held u u' : held u -> storable (merge u u') -> held (merge u u').
Proof.
  intros [H1 H2 H3 H4 H5] S. constructor; auto.
  - pose proof (bare_mounts (merged u u')) as H. rewrite bare_merged, (bare_same u H3) in H. exact H.
  - split; apply nul_app.
Qed.
Lemma row_merge u u' : held u -> row_of (merged u u') = row_of (merge u u').
Proof. intros [_ _ H3 _ _]. rewrite <- row_of_bare, bare_merged, (bare_same u H3). reflexivity. Qed.

Lemma find_row i ts : find (is_row i) (map row_of ts) = option_map row_of (find (fun t => N.eqb (t_id t) i) ts).
Proof. induction ts as [|t ts IH]; cbn [map find]; [reflexivity|]. rewrite is_row_of. destruct (N.eqb (t_id t) i); auto. Qed.
Lemma exists_row i ts : existsb (is_row i) (map row_of ts) = existsb (fun t => N.eqb (t_id t) i) ts.
Proof. induction ts as [|t ts IH]; cbn [map existsb]; [reflexivity|]. now rewrite is_row_of, IH. Qed.
Lemma exists_id i ts : existsb (fun t => N.eqb (t_id t) i) ts = false <-> ~ In i (map t_id ts).
Proof.
  split.
  - intros H Hin. apply in_map_iff in Hin as (t & E & Hin).
    assert (existsb (fun t => N.eqb (t_id t) i) ts = true) by (apply existsb_exists; exists t; split; auto; now apply N.eqb_eq). congruence.
  - intro H. destruct (existsb _ ts) eqn:E; auto. apply existsb_exists in E as (t & Hin & E). apply N.eqb_eq in E. subst.
    destruct H. now apply in_map.
Qed.
Lemma all_nested (ts : list task) : exists n0, forall n, (n0 <= n)%nat -> Forall (nested_at n) ts.
Proof.
  induction ts as [|t ts [m IH]]; [exists 0%nat; constructor|]. destruct (nested_total t) as [n N].
  exists (n + m)%nat. intros k K. constructor; [apply N|apply IH]; lia.
Qed.
Lemma NoDup_snoc {A} (l : list A) x : NoDup l -> ~ In x l -> NoDup (l ++ [x]).
Proof.
  induction 1 as [|y l Hy ND IH]; cbn; intro H; constructor; auto; [constructor|].
  rewrite in_app_iff. cbn. intuition congruence.
Qed.

(** reading gives the task held *)
Lemma read_table T ts : represents T ts -> exists n0, forall n, (n0 <= n)%nat ->
  forall i, get_task n T i = find (fun t => N.eqb (t_id t) i) ts.
Proof.
  intros [-> _ H]. destruct (all_nested ts) as [n0 N]. exists n0. intros n L i. specialize (N n L).
  unfold get_task. rewrite find_row. destruct (find _ ts) as [t|] eqn:E; [|reflexivity]. cbn [option_map].
  apply find_some in E as [Hin _]. rewrite Forall_forall in N, H.
  pose proof (H t Hin) as Ht. destruct (t_created t) as [c|] eqn:C; [|destruct (st_created t (hd_ok t Ht) C)].
  rewrite (read_row n t c C (N t Hin)), kept_held; auto.
Qed.

(* ------------------------------------------------------------------ *)
(** * Theorems (tasks) *)
(** A task is accepted exactly when its id is new, its job exists and every column can hold its value; then it is read back
    as [stored], and no other task is affected. *)
Theorem C66_task_created : forall jobs T ts t, represents T ts ->
  ((exists T', create_task jobs T t = Some T') <-> ~ In (t_id t) (map t_id ts) /\ In (t_job t) jobs /\ storable t) /\
  (forall T', create_task jobs T t = Some T' -> represents T' (ts ++ [stored t])).
Proof.
  intros jobs T ts t R. pose proof R as [-> ND H]. unfold create_task. rewrite row_stored, exists_row.
  assert (W1 : washed (stored t)) by (split; apply nul_app).
  pose proof (row_accepted _ W1) as A. rewrite storable_stored in A.
  assert (Hj : existsb (N.eqb (t_job t)) jobs = true <-> In (t_job t) jobs).
  { rewrite existsb_exists. split; [intros (x & Hx & E); apply N.eqb_eq in E; now subst|]. intro. exists (t_job t). split; auto. apply N.eqb_refl. }
  pose proof (exists_id (t_id t) ts) as F.
  destruct (row_ok task_schema (row_of (stored t))), (existsb (fun t0 => N.eqb (t_id t0) (t_id t)) ts), (existsb (N.eqb (t_job t)) jobs); cbn;
    (split; [split; [intros [T' E]; try discriminate E|intros (X1 & X2 & X3); try (apply Hj in X2; discriminate X2);
      try (apply F in X1; discriminate X1); try (apply A in X3; discriminate X3); eauto]|]);
    try (intros T' E; discriminate E).
  - split; [apply F; reflexivity|]. split; [apply Hj; reflexivity|apply A; reflexivity].
  - intros T' E. injection E as <-. constructor.
    + rewrite map_app. reflexivity.
    + rewrite map_app. cbn [map]. replace (t_id (stored t)) with (t_id t) by (destruct t; reflexivity).
      apply NoDup_snoc; auto. apply F; reflexivity.
    + apply Forall_app. split; auto. constructor; auto. apply held_stored, A. reflexivity.
Qed.

(** A stored task is read back; no other id finds anything. *)
Theorem C66_task_read : forall T ts, represents T ts -> exists n0, forall n, (n0 <= n)%nat ->
  forall i, get_task n T i = find (fun t => N.eqb (t_id t) i) ts.
Proof. exact read_table. Qed.

(** An update succeeds exactly when the columns can hold the new values; then exactly the fields listed in [merge] change, in
    exactly that task. *)
Definition replace_at (i : id) (v : task) (ts : list task) : list task := map (fun x => if N.eqb (t_id x) i then v else x) ts.
Theorem C66_task_updated : forall T ts, represents T ts -> exists n0, forall n, (n0 <= n)%nat -> forall i modify,
  (forall x y, modify x = Some y -> t_id y = t_id x) ->
  match find (fun t => N.eqb (t_id t) i) ts with
  | None => update_task n T i modify = None
  | Some u =>
      match modify u with
      | None => update_task n T i modify = None
      | Some u' =>
          ((exists T', update_task n T i modify = Some T') <-> storable (merge u u')) /\
          (forall T', update_task n T i modify = Some T' -> represents T' (replace_at i (merge u u') ts))
      end
  end.
Proof.
  intros T ts R. destruct (read_table T ts R) as [n0 N0]. exists n0. intros n L i modify M. specialize (N0 n L).
  pose proof R as [-> ND H]. unfold update_task. rewrite N0.
  destruct (find _ ts) as [u|] eqn:E; [|reflexivity]. destruct (modify u) as [u'|] eqn:Em; [|reflexivity].
  apply find_some in E as [Hin Ei]. apply N.eqb_eq in Ei. assert (Ei' : t_id u' = i) by (rewrite (M _ _ Em); exact Ei). rewrite Ei'.
  rewrite Forall_forall in H. pose proof (H u Hin) as Hu.
  assert (ND' : forall x, In x ts -> t_id x = i -> x = u).
  { intros x Hx Ex. subst i. clear - ND Hin Hx Ex. induction ts as [|y ts IH]; cbn in *; [tauto|].
    inversion ND as [|a l Hn Hd]; subst. destruct Hin as [->|Hin], Hx as [->|Hx]; auto.
    - destruct Hn. rewrite <- Ex. now apply in_map.
    - destruct Hn. rewrite Ex. now apply in_map. }
  assert (ET : map (fun r => if is_row i r then update r update_task_columns (update_task_args u') else r) (map row_of ts)
               = map row_of (replace_at i (merge u u') ts)).
  { unfold replace_at. rewrite !map_map. apply map_ext_in. intros x Hx. rewrite is_row_of.
    destruct (N.eqb (t_id x) i) eqn:Ex; [|reflexivity]. apply N.eqb_eq in Ex. rewrite (ND' x Hx Ex), update_row. now apply row_merge. }
  rewrite ET.
  assert (W : washed (merge u u')) by (split; apply nul_app).
  assert (OK : forallb (row_ok task_schema) (map row_of (replace_at i (merge u u') ts)) = true <-> storable (merge u u')).
  { rewrite forallb_forall. split.
    - intro K. apply (row_accepted _ W), K. apply in_map. unfold replace_at. apply in_map_iff. exists u. rewrite Ei, N.eqb_refl. auto.
    - intros K r Hr. apply in_map_iff in Hr as (x & <- & Hx). unfold replace_at in Hx. apply in_map_iff in Hx as (y & <- & Hy).
      destruct (N.eqb (t_id y) i); [now apply row_accepted|]. pose proof (H y Hy) as [_ _ _ Wy Sy]. now apply row_accepted. }
  destruct (forallb _ _).
  - split; [split; [intros _; apply OK; reflexivity|eauto]|]. intros T' E. injection E as <-. constructor; [reflexivity| |].
    + replace (map t_id (replace_at i (merge u u') ts)) with (map t_id ts); [exact ND|].
      unfold replace_at. rewrite map_map. apply map_ext_in. intros x Hx. destruct (N.eqb (t_id x) i) eqn:Ex; [|reflexivity].
      apply N.eqb_eq in Ex. rewrite (ND' x Hx Ex). destruct u. reflexivity.
    + apply Forall_forall. intros x Hx. unfold replace_at in Hx. apply in_map_iff in Hx as (y & <- & Hy).
      destruct (N.eqb (t_id y) i); [|auto]. apply merge_held; auto. apply OK. reflexivity.
  - split; [split; [intros [T' E]; discriminate E|intro K; apply OK in K; discriminate K]|]. intros T' E. discriminate E.
Qed.

(** ** The model of the coordinator loses nothing by writing whole tasks *)
Lemma tdef_mounts t : mounts_in (tdef t) = mounts_in t.
Proof. destruct t as [? ? ? ? ? ? ? ? ? ? ? ? ? ? ? ? ? ? ? ? ? ? ? ? ? ? ? ? ? ? ? ? ? ? p e s ? ? ? ? ? ?]. destruct p, e, s; reflexivity. Qed.
Lemma task_eq (a b : task) : t_id a = t_id b -> t_job a = t_job b -> t_parent a = t_parent b -> t_position a = t_position b -> t_name a = t_name b -> t_description a = t_description b -> t_state a = t_state b -> t_created a = t_created b -> t_scheduled a = t_scheduled b -> t_started a = t_started b -> t_completed a = t_completed b -> t_failed a = t_failed b -> t_cmd a = t_cmd b -> t_entrypoint a = t_entrypoint b -> t_run a = t_run b -> t_image a = t_image b -> t_registry a = t_registry b -> t_env a = t_env b -> t_files a = t_files b -> t_queue a = t_queue b -> t_redelivered a = t_redelivered b -> t_error a = t_error b -> t_pre a = t_pre b -> t_post a = t_post b -> t_sidecars a = t_sidecars b -> t_mounts a = t_mounts b -> t_networks a = t_networks b -> t_node a = t_node b -> t_retry a = t_retry b -> t_limits a = t_limits b -> t_timeout a = t_timeout b -> t_result a = t_result b -> t_var a = t_var b -> t_if a = t_if b -> t_parallel a = t_parallel b -> t_each a = t_each b -> t_subjob a = t_subjob b -> t_gpus a = t_gpus b -> t_tags a = t_tags b -> t_workdir a = t_workdir b -> t_priority a = t_priority b -> t_progress a = t_progress b -> t_probe a = t_probe b -> a = b.
Proof. destruct a, b. cbn. intros. subst. reflexivity. Qed.
Lemma merge_whole u u' : held u -> tdef u' = tdef u -> clean (t_error u') -> clean (t_result u') -> merge u u' = u'.
Proof.
  intros Hu Hd He Hr.
  assert (B : bare u' = u').
  { apply bare_same. rewrite <- tdef_mounts, Hd, tdef_mounts. apply (hd_mounts u Hu). }
  unfold merge. rewrite B. cbv zeta. rewrite (sanitize_id _ He), (sanitize_id _ Hr). clear Hu He Hr B.
  apply task_eq; match goal with |- ?f _ = ?f ?v => first [reflexivity | change (f u = f v); symmetry; change (f (tdef v) = f (tdef u)); now rewrite Hd] end.
Qed.

(** Every step of the coordinator, from any reachable state: what the model writes to a stored task is what the SQL update stores. *)
Theorem C66_task_updates_are_whole : forall O c l c' i t, reachable O c -> step O c l c' -> find_task i (cw c) = Some t -> held t ->
  exists t', find_task i (cw c') = Some t' /\ (clean (t_error t') -> clean (t_result t') -> merge t t' = t').
Proof.
  intros O c l c' i t HR S E H. destruct (task_step_cases _ _ _ _ _ _ HR S E) as (t' & E' & K). exists t'. split; [exact E'|].
  intros He Hr. apply merge_whole; auto. destruct K as [->|(o & -> & Hd & _)]; auto.
Qed.
(** A created task is held as the model says, if its text has no zero character and its mounts no id. *)
Theorem C66_task_creation_is_whole : forall t, Forall (fun m => m_id m = "") (mounts_in t) -> clean (t_error t) -> clean (t_result t) ->
  stored t = db_task t.
Proof.
  intros t M He Hr. unfold stored. rewrite (bare_same t M), (sanitize_id _ He), (sanitize_id _ Hr). destruct t. reflexivity.
Qed.

(* ------------------------------------------------------------------ *)
(** * Jobs *)
(** schema.go:75-102 (without ts, which is computed) *)
Definition job_schema : list column :=
  [mkCol "id" (KVarchar 32) true CNull;
   mkCol "name" (KVarchar 256) false CNull;
   mkCol "tags" KArr true (CArr []);
   mkCol "state" (KVarchar 10) true CNull;
   mkCol "created_at" KTime true CNull;
   mkCol "created_by" (KVarchar 32) true CNull;
   mkCol "started_at" KTime false CNull;
   mkCol "completed_at" KTime false CNull;
   mkCol "delete_at" KTime false CNull;
   mkCol "failed_at" KTime false CNull;
   mkCol "tasks" KJson true CNull;
   mkCol "position" KInt true CNull;
   mkCol "inputs" KJson true CNull;
   mkCol "context" KJson true CNull;
   mkCol "description" KText false CNull;
   mkCol "parent_id" (KVarchar 32) false CNull;
   mkCol "task_count" KInt true CNull;
   mkCol "output_" KText false CNull;
   mkCol "result" KText false CNull;
   mkCol "error_" KText false CNull;
   mkCol "defaults" KJson false CNull;
   mkCol "webhooks" KJson false CNull;
   mkCol "auto_delete" KJson false CNull;
   mkCol "secrets" KJson false CNull;
   mkCol "progress" KNumeric false (CInt 0);
   mkCol "scheduled_job_id" (KVarchar 32) false CNull].
(** a nil map of inputs is the JSON null *)
Definition c_map0 (m : smap) : cell := CJson (match o_map m with Some j => j | None => JNull end).
Definition c_user (u : option user) : cell := match u with Some u => CId (u_id u) | None => CNull end.
(** postgres.go:655-658 *)
Definition c_sched (s : option jobschedule) : cell :=
  match s with Some s => if is_noid (sc_id s) then CNull else CId (sc_id s) | None => CNull end.

Section Jobs.
(** The encryption of secrets (postgres.go:696-730) is the subject of C35: here any pair of functions that reads back what it
    wrote. *)
Variable shut : smap -> smap.
Variable unshut : smap -> option smap.
Hypothesis shut_nil : shut [] = [].
Hypothesis unshut_shut : forall m, unshut (shut m) = Some m.
Hypothesis shut_keeps : forall m, m <> [] -> shut m <> [].
(** GetUser by id (postgres.go:1157-1166; C63: ids and names never collide) *)
Variable who : id -> option user.

(** postgres.go:664-668 *)
Definition insert_job_columns : list string := ["id"; "name"; "description"; "state"; "created_at"; "started_at"; "tasks"; "position"; "inputs"; "context"; "parent_id"; "task_count"; "output_"; "result"; "error_"; "defaults"; "webhooks"; "created_by"; "tags"; "auto_delete"; "secrets"; "scheduled_job_id"].
(** postgres.go:669-671; the creator has been resolved (postgres.go:597-603) *)
Definition insert_job_args (j : job) : list cell :=
  [CId (j_id j);
   CText (j_name j);
   CText (j_description j);
   CText (jstate_name (j_state j));
   CTime (j_created j);
   c_time (j_started j);
   c_list enc_task (j_tasks j);
   CInt (j_position j);
   c_map0 (j_inputs j);
   CJson (enc_ctx (j_context j));
   CId (j_parent j);
   CInt (j_taskcount j);
   CText (j_output j);
   CText (j_result j);
   CText (j_error j);
   c_json (o_ptr enc_defaults (j_defaults j));
   c_list enc_webhook (j_webhooks j);
   c_user (j_createdby j);
   CArr (j_tags j);
   c_json (o_ptr enc_autodelete (j_autodelete j));
   c_json (o_map (shut (j_secrets j)));
   c_sched (j_schedule j)].
(** postgres.go:767-778 *)
Definition update_job_columns : list string := ["state"; "started_at"; "completed_at"; "failed_at"; "position"; "context"; "result"; "error_"; "delete_at"; "progress"].
(** postgres.go:779 *)
Definition update_job_args (j : job) : list cell :=
  [CText (jstate_name (j_state j));
   c_time (j_started j);
   c_time (j_completed j);
   c_time (j_failed j);
   CInt (j_position j);
   CJson (enc_ctx (j_context j));
   CText (j_result j);
   CText (j_error j);
   c_time (j_deleteat j);
   CInt (j_progress j)].
(** record.go:57-85,319-394; tasks: postgres.go:794-797.  [exec] and [perms] come from other tables. *)
Definition to_job (n : nat) (exec : list task) (perms : list permission) (r : row) : option job :=
  let g := at_ r in let D := dec_task n in
  let? v1 := q_id (g "id") in let? v2 := q_id (g "parent_id") in let? v3 := q_text (g "name") in let? v4 := q_text (g "description") in
  let? v5 := q_arr (g "tags") in let? v6 := q_state jstates (g "state") in let? v7 := q_time (g "created_at") in
  let? c8 := q_id (g "created_by") in let? v8 := who c8 in let? v9 := q_optime (g "started_at") in let? v10 := q_optime (g "completed_at") in
  let? v11 := q_optime (g "failed_at") in let? v12 := q_json (d_arr D) (g "tasks") in
  let? v14 := q_int (g "position") in let? v15 := q_json d_map (g "inputs") in
  let? v16 := q_json (fun j => match j with Some j => dec_ctx j | None => None end) (g "context") in
  let? v17 := q_int (g "task_count") in let? v18 := q_text (g "output_") in let? v19 := q_text (g "result") in let? v20 := q_text (g "error_") in
  let? v21 := q_json (d_ptr dec_defaults) (g "defaults") in let? v22 := q_json (d_arr dec_webhook) (g "webhooks") in
  let? v24 := q_json (d_ptr dec_autodelete) (g "auto_delete") in
  let? v25 := q_optime (g "delete_at") in let? c26 := q_json d_map (g "secrets") in
  let? v26 := match c26 with [] => Some [] | _ => unshut c26 end in
  let? v27 := q_int (g "progress") in
  let? v28 := match g "scheduled_job_id" with CNull => Some None | CId i => Some (Some (mkSchedule i "")) | _ => None end in
  Some (mkJob v1 v2 v3 v4 v5 v6 v7 (Some v8) v9 v10 v11 v12 exec v14 v15 v16 v17 v18 v19 v20 v21 v22 perms v24 v25 v26 v27 v28).

(** CreateJob, postgres.go:593-694: the creator must be a user, the schedule a scheduled job (schema.go:81,102) *)
Definition create_job (users scheds : list id) (T : list row) (j : job) : option (list row) :=
  if is_noid (j_id j) then None else
  let? r := insert job_schema insert_job_columns (insert_job_args j) in
  if row_ok job_schema r && negb (existsb (is_row (j_id j)) T)
     && match at_ r "created_by" with CId u => existsb (N.eqb u) users | _ => false end
     && match at_ r "scheduled_job_id" with CId u => existsb (N.eqb u) scheds | _ => true end
  then Some (T ++ [r]) else None.
(** GetJobByID, postgres.go:784-845 *)
Definition get_job (n : nat) (exec : list task) (perms : list permission) (T : list row) (i : id) : option job :=
  let? r := find (is_row i) T in to_job n exec perms r.
(** UpdateJob, postgres.go:732-782 *)
Definition update_job (n : nat) (T : list row) (i : id) (modify : job -> option job) : option (list row) :=
  let? u := get_job n [] [] T i in
  let? u' := modify u in
  let T' := map (fun r => if is_row (j_id u') r then update r update_job_columns (update_job_args u') else r) T in
  if forallb (row_ok job_schema) T' then Some T' else None.

(** ** Specification *)
(** What of a submitted job can be read back. Permissions and execution come from other tables. *)
Definition kept_schedule (s : option jobschedule) : option jobschedule :=
  match s with Some s => if is_noid (sc_id s) then None else Some (mkSchedule (sc_id s) "") | None => None end.
Definition stored_job (j : job) : job :=
  j <| j_tasks := map bare (j_tasks j) |> <| j_execution := [] |> <| j_permissions := [] |>
    <| j_completed := None |> <| j_failed := None |> <| j_deleteat := None |> <| j_progress := 0 |>
    <| j_schedule := kept_schedule (j_schedule j) |>.
(** What an update may change. *)
Definition merge_job (u u' : job) : job :=
  u <| j_state := j_state u' |> <| j_started := j_started u' |> <| j_completed := j_completed u' |> <| j_failed := j_failed u' |>
    <| j_position := j_position u' |> <| j_context := j_context u' |> <| j_result := j_result u' |> <| j_error := j_error u' |>
    <| j_deleteat := j_deleteat u' |> <| j_progress := j_progress u' |>.
Record storable_job (j : job) : Prop := mkStorableJob {
  sj_short : short 256 (j_name j);
  sj_text : clean (j_description j) /\ clean (j_output j) /\ clean (j_result j) /\ clean (j_error j);
  sj_tags : Forall clean (j_tags j);
  sj_ints : int4 (j_position j) = true /\ int4 (j_taskcount j) = true;
  sj_maps : (forall k v, In (k, v) (j_inputs j) \/ In (k, v) (shut (j_secrets j)) -> clean k /\ clean v);
  sj_context : json_free (enc_ctx (j_context j)) = true;
  sj_tasks : Forall (fun x => json_free (enc_task x) = true) (j_tasks j);
  sj_webhooks : Forall (fun x => json_free (enc_webhook x) = true) (j_webhooks j);
  sj_defaults : match j_defaults j with Some x => json_free (enc_defaults x) = true | None => True end;
  sj_autodelete : match j_autodelete j with Some x => json_free (enc_autodelete x) = true | None => True end }.

(** ** Proofs *)
Definition job_row (j : job) : row :=
  [("id", CId (j_id j));
   ("name", CText (j_name j));
   ("tags", CArr (j_tags j));
   ("state", CText (jstate_name (j_state j)));
   ("created_at", CTime (j_created j));
   ("created_by", c_user (j_createdby j));
   ("started_at", c_time (j_started j));
   ("completed_at", c_time (j_completed j));
   ("delete_at", c_time (j_deleteat j));
   ("failed_at", c_time (j_failed j));
   ("tasks", c_list enc_task (j_tasks j));
   ("position", CInt (j_position j));
   ("inputs", c_map0 (j_inputs j));
   ("context", CJson (enc_ctx (j_context j)));
   ("description", CText (j_description j));
   ("parent_id", CId (j_parent j));
   ("task_count", CInt (j_taskcount j));
   ("output_", CText (j_output j));
   ("result", CText (j_result j));
   ("error_", CText (j_error j));
   ("defaults", c_json (o_ptr enc_defaults (j_defaults j)));
   ("webhooks", c_list enc_webhook (j_webhooks j));
   ("auto_delete", c_json (o_ptr enc_autodelete (j_autodelete j)));
   ("secrets", c_json (o_map (shut (j_secrets j))));
   ("progress", CInt (j_progress j));
   ("scheduled_job_id", c_sched (j_schedule j))].
Lemma insert_job_generic v1 v2 v3 v4 v5 v6 v7 v8 v9 v10 v11 v12 v13 v14 v15 v16 v17 v18 v19 v20 v21 v22 :
  insert job_schema insert_job_columns [v1; v2; v3; v4; v5; v6; v7; v8; v9; v10; v11; v12; v13; v14; v15; v16; v17; v18; v19; v20; v21; v22] =
  Some [("id", v1); ("name", v2); ("tags", v19); ("state", v4); ("created_at", v5); ("created_by", v18); ("started_at", v6); ("completed_at", CNull); ("delete_at", CNull); ("failed_at", CNull); ("tasks", v7); ("position", v8); ("inputs", v9); ("context", v10); ("description", v3); ("parent_id", v11); ("task_count", v12); ("output_", v13); ("result", v14); ("error_", v15); ("defaults", v16); ("webhooks", v17); ("auto_delete", v20); ("secrets", v21); ("progress", (CInt 0)); ("scheduled_job_id", v22)].
Proof. reflexivity. Qed.
Lemma update_job_generic a1 a2 a3 a4 a5 a6 a7 a8 a9 a10 a11 a12 a13 a14 a15 a16 a17 a18 a19 a20 a21 a22 a23 a24 a25 a26 v1 v2 v3 v4 v5 v6 v7 v8 v9 v10 :
  update [("id", a1); ("name", a2); ("tags", a3); ("state", a4); ("created_at", a5); ("created_by", a6); ("started_at", a7); ("completed_at", a8); ("delete_at", a9); ("failed_at", a10); ("tasks", a11); ("position", a12); ("inputs", a13); ("context", a14); ("description", a15); ("parent_id", a16); ("task_count", a17); ("output_", a18); ("result", a19); ("error_", a20); ("defaults", a21); ("webhooks", a22); ("auto_delete", a23); ("secrets", a24); ("progress", a25); ("scheduled_job_id", a26)]
    update_job_columns [v1; v2; v3; v4; v5; v6; v7; v8; v9; v10] =
  [("id", a1); ("name", a2); ("tags", a3); ("state", v1); ("created_at", a5); ("created_by", a6); ("started_at", v2); ("completed_at", v3); ("delete_at", v9); ("failed_at", v4); ("tasks", a11); ("position", v5); ("inputs", a13); ("context", v6); ("description", a15); ("parent_id", a16); ("task_count", a17); ("output_", a18); ("result", v7); ("error_", v8); ("defaults", a21); ("webhooks", a22); ("auto_delete", a23); ("secrets", a24); ("progress", v10); ("scheduled_job_id", a26)].
Proof. reflexivity. Qed.
Lemma job_checks j : row_ok job_schema (job_row j) = forallb (fun b => b)
  [fits (KVarchar 32) (CId (j_id j)) && (negb true || negb (is_null (CId (j_id j))));
   fits (KVarchar 256) (CText (j_name j)) && (negb false || negb (is_null (CText (j_name j))));
   fits KArr (CArr (j_tags j)) && (negb true || negb (is_null (CArr (j_tags j))));
   fits (KVarchar 10) (CText (jstate_name (j_state j))) && (negb true || negb (is_null (CText (jstate_name (j_state j)))));
   fits KTime (CTime (j_created j)) && (negb true || negb (is_null (CTime (j_created j))));
   fits (KVarchar 32) (c_user (j_createdby j)) && (negb true || negb (is_null (c_user (j_createdby j))));
   fits KTime (c_time (j_started j)) && (negb false || negb (is_null (c_time (j_started j))));
   fits KTime (c_time (j_completed j)) && (negb false || negb (is_null (c_time (j_completed j))));
   fits KTime (c_time (j_deleteat j)) && (negb false || negb (is_null (c_time (j_deleteat j))));
   fits KTime (c_time (j_failed j)) && (negb false || negb (is_null (c_time (j_failed j))));
   fits KJson (c_list enc_task (j_tasks j)) && (negb true || negb (is_null (c_list enc_task (j_tasks j))));
   fits KInt (CInt (j_position j)) && (negb true || negb (is_null (CInt (j_position j))));
   fits KJson (c_map0 (j_inputs j)) && (negb true || negb (is_null (c_map0 (j_inputs j))));
   fits KJson (CJson (enc_ctx (j_context j))) && (negb true || negb (is_null (CJson (enc_ctx (j_context j)))));
   fits KText (CText (j_description j)) && (negb false || negb (is_null (CText (j_description j))));
   fits (KVarchar 32) (CId (j_parent j)) && (negb false || negb (is_null (CId (j_parent j))));
   fits KInt (CInt (j_taskcount j)) && (negb true || negb (is_null (CInt (j_taskcount j))));
   fits KText (CText (j_output j)) && (negb false || negb (is_null (CText (j_output j))));
   fits KText (CText (j_result j)) && (negb false || negb (is_null (CText (j_result j))));
   fits KText (CText (j_error j)) && (negb false || negb (is_null (CText (j_error j))));
   fits KJson (c_json (o_ptr enc_defaults (j_defaults j))) && (negb false || negb (is_null (c_json (o_ptr enc_defaults (j_defaults j)))));
   fits KJson (c_list enc_webhook (j_webhooks j)) && (negb false || negb (is_null (c_list enc_webhook (j_webhooks j))));
   fits KJson (c_json (o_ptr enc_autodelete (j_autodelete j))) && (negb false || negb (is_null (c_json (o_ptr enc_autodelete (j_autodelete j)))));
   fits KJson (c_json (o_map (shut (j_secrets j)))) && (negb false || negb (is_null (c_json (o_map (shut (j_secrets j))))));
   fits KNumeric (CInt (j_progress j)) && (negb false || negb (is_null (CInt (j_progress j))));
   fits (KVarchar 32) (c_sched (j_schedule j)) && (negb false || negb (is_null (c_sched (j_schedule j))))].
Proof. reflexivity. Qed.
Lemma insert_job_row j : insert job_schema insert_job_columns (insert_job_args j) =
  Some (job_row (j <| j_completed := None |> <| j_failed := None |> <| j_deleteat := None |> <| j_progress := 0 |>)).
Proof. unfold insert_job_args. rewrite insert_job_generic. destruct j. reflexivity. Qed.
Lemma update_job_row u u' : update (job_row u) update_job_columns (update_job_args u') = job_row (merge_job u u').
Proof. unfold job_row, update_job_args. rewrite update_job_generic. destruct u, u'. reflexivity. Qed.
Lemma sched_row s : c_sched (kept_schedule s) = c_sched s.
Proof. destruct s as [[i c]|]; cbn; auto. destruct (is_noid i) eqn:E; cbn; [reflexivity|now rewrite E]. Qed.
Lemma sched_read s : match c_sched s with CNull => Some None | CId i => Some (Some (mkSchedule i "")) | _ => None end = Some (kept_schedule s).
Proof. destruct s as [[i c]|]; cbn; auto. destruct (is_noid i); reflexivity. Qed.
Lemma job_row_ext (a b : job) : j_id a = j_id b -> j_name a = j_name b -> j_tags a = j_tags b -> j_state a = j_state b -> j_created a = j_created b -> j_createdby a = j_createdby b -> j_started a = j_started b -> j_completed a = j_completed b -> j_deleteat a = j_deleteat b -> j_failed a = j_failed b -> j_position a = j_position b -> j_inputs a = j_inputs b -> j_context a = j_context b -> j_description a = j_description b -> j_parent a = j_parent b -> j_taskcount a = j_taskcount b -> j_output a = j_output b -> j_result a = j_result b -> j_error a = j_error b -> j_defaults a = j_defaults b -> j_webhooks a = j_webhooks b -> j_autodelete a = j_autodelete b -> j_secrets a = j_secrets b -> j_progress a = j_progress b ->
  c_list enc_task (j_tasks a) = c_list enc_task (j_tasks b) -> c_sched (j_schedule a) = c_sched (j_schedule b) -> job_row a = job_row b.
Proof. intros. unfold job_row. congruence. Qed.
Lemma job_row_stored j : insert job_schema insert_job_columns (insert_job_args j) = Some (job_row (stored_job j)).
Proof.
  rewrite insert_job_row. f_equal. apply job_row_ext; try reflexivity.
  - change (j_tasks (stored_job j)) with (map bare (j_tasks j)). unfold c_list. rewrite bare_arr. reflexivity.
  - change (j_schedule (stored_job j)) with (kept_schedule (j_schedule j)). rewrite sched_row. reflexivity.
Qed.
Lemma rq_jstate s : q_state jstates (CText (jstate_name s)) = Some s.
Proof. now destruct s. Qed.
Lemma rq_map0 m : q_json d_map (c_map0 m) = Some m.
Proof. pose proof (rt_map m) as H. unfold c_map0. destruct (o_map m); exact H. Qed.
Lemma rq_user u : q_id (c_user (Some u)) = Some (u_id u).
Proof. reflexivity. Qed.
Lemma rq_ctx c : q_json (fun j => match j with Some j => dec_ctx j | None => None end) (CJson (enc_ctx c)) = Some c.
Proof. apply rt_ctx. Qed.
Lemma rq_secrets m : (match shut m with [] => Some [] | _ => unshut (shut m) end) = Some m.
Proof.
  destruct m as [|p m]; [now rewrite shut_nil|]. pose proof (shut_keeps (p :: m) ltac:(discriminate)) as N.
  destruct (shut (p :: m)) eqn:E; [congruence|]. rewrite <- E. apply unshut_shut.
Qed.
Lemma read_job n exec perms j u : j_createdby j = Some u -> who (u_id u) = Some u -> Forall (sends n) (j_tasks j) ->
  to_job n exec perms (job_row j) = Some (j <| j_tasks := map bare (j_tasks j) |> <| j_execution := exec |> <| j_permissions := perms |>
                                            <| j_schedule := kept_schedule (j_schedule j) |>).
Proof.
  intros Hu Hw H1. unfold to_job. cbv zeta.
  set (g := at_ (job_row j)). assert (G : forall k, g k = at_ (job_row j) k) by reflexivity. clearbody g.
  do 5 rnext.
  eapply bind_some. { rewrite G; erewrite at_bound by reflexivity. apply rq_jstate. }
  rnext.
  eapply bind_some. { rewrite G; erewrite at_bound by reflexivity. rewrite Hu. apply rq_user. }
  eapply bind_some; [exact Hw|].
  do 3 rnext.
  rnext. { exact (rt_arr' _ _ _ _ H1). }
  rnext.
  eapply bind_some. { rewrite G; erewrite at_bound by reflexivity. apply rq_map0. }
  eapply bind_some. { rewrite G; erewrite at_bound by reflexivity. apply rq_ctx. }
  do 4 rnext.
  rnext. { ptr rt_defaults. reflexivity. }
  rnext. { apply (rt_arr' _ _ (fun x => x)). apply Forall_forall; intros; apply rt_webhook. }
  rnext. { ptr rt_autodelete. reflexivity. }
  rnext.
  rnext. { apply rt_map. }
  eapply bind_some; [apply rq_secrets|].
  rnext.
  eapply bind_some. { rewrite G; erewrite at_bound by reflexivity. apply sched_read. }
  rewrite map_id. destruct j. cbn in Hu. subst. reflexivity.
Qed.

Lemma fits_arr' l : fits KArr (CArr l) = true <-> Forall clean l.
Proof. cbn. rewrite forallb_forall, Forall_forall. reflexivity. Qed.
Lemma fits_map0 m : fits KJson (c_map0 m) = true <-> (forall k v, In (k, v) m -> clean k /\ clean v).
Proof. rewrite <- fits_map. destruct m; reflexivity. Qed.
Lemma fits_ctx c : fits KJson (CJson (enc_ctx c)) = true <-> json_free (enc_ctx c) = true.
Proof. reflexivity. Qed.
Lemma fits_sched s : fits (KVarchar 32) (c_sched s) = true.
Proof. destruct s as [[i c]|]; cbn; auto. destruct (is_noid i); reflexivity. Qed.
Lemma fits_user s : fits (KVarchar 32) (c_user s) = true.
Proof. now destruct s. Qed.
Lemma job_accepted j : j_createdby j <> None -> row_ok job_schema (job_row j) = true <-> storable_job j.
Proof.
  intro U. assert (U' : negb (is_null (c_user (j_createdby j))) = true) by (destruct (j_createdby j); [reflexivity|congruence]).
  rewrite job_checks. cbn [forallb negb orb is_null]. rewrite ?andb_true_r.
  rewrite !andb_true_iff, !fits_time, !fits_varchar, !fits_arr', !fits_map, !fits_list, !fits_ptr, !fits_sched, !fits_user.
  split.
  - intro H. repeat match goal with H : _ /\ _ |- _ => destruct H end.
    constructor; auto 10. intros k v [K|K]; auto. eapply fits_map0; eassumption.
  - intros [C1 C2 C3 C4 C5 C6 C7 C8 C9 C10].
    repeat match goal with H : _ /\ _ |- _ => destruct H end.
    assert (S : short 10 (jstate_name (j_state j))) by (destruct (j_state j); (split; [reflexivity|cbn; lia])).
    repeat match goal with |- _ /\ _ => split end; try assumption; try reflexivity; try match goal with |- fits KJson (c_map0 _) = true => apply fits_map0 end;
      intros; eapply C5; eauto.
Qed.

(** ** Tables of jobs *)
Record held_job (j : job) : Prop := mkHeldJob {
  hj_by : exists u, j_createdby j = Some u /\ who (u_id u) = Some u;
  hj_exec : j_execution j = []; hj_perms : j_permissions j = [];
  hj_mounts : Forall (fun t => Forall (fun m => m_id m = "") (mounts_in t)) (j_tasks j);
  hj_sched : kept_schedule (j_schedule j) = j_schedule j;
  hj_ok : storable_job j }.
Record represents_jobs (T : list row) (js : list job) : Prop := mkRepJ {
  rj_rows : T = map job_row js; rj_ids : NoDup (map j_id js); rj_held : Forall held_job js }.

Lemma is_job_row i j : is_row i (job_row j) = N.eqb (j_id j) i.
Proof. reflexivity. Qed.
Lemma find_job_row i js : find (is_row i) (map job_row js) = option_map job_row (find (fun t => N.eqb (j_id t) i) js).
Proof. induction js as [|t ts IH]; cbn [map find]; [reflexivity|]. rewrite is_job_row. destruct (N.eqb (j_id t) i); auto. Qed.
Lemma exists_job_row i js : existsb (is_row i) (map job_row js) = existsb (fun t => N.eqb (j_id t) i) js.
Proof. induction js as [|t ts IH]; cbn [map existsb]; [reflexivity|]. now rewrite is_job_row, IH. Qed.
Lemma exists_job_id i js : existsb (fun t => N.eqb (j_id t) i) js = false <-> ~ In i (map j_id js).
Proof.
  split.
  - intros H Hin. apply in_map_iff in Hin as (t & E & Hin).
    assert (existsb (fun t => N.eqb (j_id t) i) js = true) by (apply existsb_exists; exists t; split; auto; now apply N.eqb_eq). congruence.
  - intro H. destruct (existsb _ js) eqn:E; auto. apply existsb_exists in E as (t & Hin & E). apply N.eqb_eq in E. subst.
    destruct H. now apply in_map.
Qed.
Lemma all_jobs_nested (js : list job) : exists n0, forall n, (n0 <= n)%nat -> Forall (fun j => Forall (sends n) (j_tasks j)) js.
Proof.
  induction js as [|t ts [m IH]]; [exists 0%nat; constructor|]. destruct (all_sent (j_tasks t)) as [n N].
  exists (n + m)%nat. intros k K. constructor; [apply (sent_more n); [lia|exact N]|apply IH; lia].
Qed.
Lemma keep_job j e p : held_job j -> j <| j_tasks := map bare (j_tasks j) |> <| j_execution := e |> <| j_permissions := p |>
                                            <| j_schedule := kept_schedule (j_schedule j) |> = j <| j_execution := e |> <| j_permissions := p |>.
Proof.
  intros [_ _ _ M S _]. rewrite S, (map_same bare (j_tasks j)); [destruct j; reflexivity|].
  eapply Forall_impl; [|exact M]. intros t. apply bare_same.
Qed.
Lemma keep_job0 j : held_job j -> j <| j_execution := [] |> <| j_permissions := [] |> = j.
Proof. intros [_ E P _ _ _]. destruct j. cbn in *. now subst. Qed.

(** A stored job is read back with its creator, whatever its executions and permissions. *)
Theorem C66_job_read : forall T js, represents_jobs T js -> exists n0, forall n, (n0 <= n)%nat -> forall exec perms i,
  get_job n exec perms T i = match find (fun j => N.eqb (j_id j) i) js with
                             | Some j => Some (j <| j_execution := exec |> <| j_permissions := perms |>) | None => None end.
Proof.
  intros T js [-> _ H]. destruct (all_jobs_nested js) as [n0 N]. exists n0. intros n L exec perms i. specialize (N n L).
  unfold get_job. rewrite find_job_row. destruct (find _ js) as [t|] eqn:E; [|reflexivity]. cbn [option_map].
  apply find_some in E as [Hin _]. rewrite Forall_forall in N, H. pose proof (H t Hin) as Ht.
  destruct (hj_by t Ht) as (u & U & W). rewrite (read_job n exec perms t u U W (N t Hin)). f_equal. now apply keep_job.
Qed.
(** A job is accepted exactly when it has an id not used before, its creator is known, its schedule exists and every column can
    hold its value; then it is read back as [stored_job]. *)
Theorem C66_job_created : forall users scheds T js j u, represents_jobs T js -> j_createdby j = Some u -> who (u_id u) = Some u ->
  ((exists T', create_job users scheds T j = Some T') <->
     j_id j <> noid /\ ~ In (j_id j) (map j_id js) /\ In (u_id u) users /\
     (forall s, kept_schedule (j_schedule j) = Some s -> In (sc_id s) scheds) /\ storable_job j) /\
  (forall T', create_job users scheds T j = Some T' -> represents_jobs T' (js ++ [stored_job j])).
Proof.
  intros users scheds T js j u R U W. pose proof R as [-> ND H].
  assert (Hin : forall x l, existsb (N.eqb x) l = true <-> In x l).
  { intros x l. rewrite existsb_exists. split; [intros (y & Hy & E); apply N.eqb_eq in E; now subst|]. intro. exists x. split; auto. apply N.eqb_refl. }
  set (j1 := stored_job j).
  assert (U1 : j_createdby j1 = Some u) by exact U.
  assert (A : row_ok job_schema (job_row j1) = true <-> storable_job j).
  { rewrite (job_accepted j1) by congruence. subst j1. clear. split; intros []; constructor; auto.
    - change (j_tasks (stored_job j)) with (map bare (j_tasks j)) in sj_tasks0. rewrite Forall_map in sj_tasks0. eapply Forall_impl; [|exact sj_tasks0]. intros t; cbv beta. now rewrite enc_bare.
    - change (j_tasks (stored_job j)) with (map bare (j_tasks j)). rewrite Forall_map. eapply Forall_impl; [|exact sj_tasks0].
      intros t; cbv beta. now rewrite enc_bare. }
  assert (A2 : storable_job j -> storable_job j1) by (intro X; apply (job_accepted j1); [congruence|]; now apply A).
  assert (B : match at_ (job_row j1) "created_by" with CId x => existsb (N.eqb x) users | _ => false end = existsb (N.eqb (u_id u)) users).
  { change (at_ (job_row j1) "created_by") with (c_user (j_createdby j1)). rewrite U1. reflexivity. }
  assert (C : match at_ (job_row j1) "scheduled_job_id" with CId x => existsb (N.eqb x) scheds | _ => true end = true
              <-> (forall s, kept_schedule (j_schedule j) = Some s -> In (sc_id s) scheds)).
  { change (at_ (job_row j1) "scheduled_job_id") with (c_sched (kept_schedule (j_schedule j))). rewrite sched_row.
    destruct (j_schedule j) as [[i c]|]; cbn; [|split; [discriminate|auto]].
    destruct (is_noid i); cbn; [split; [discriminate|auto]|]. rewrite Hin. split; [intros K s E; injection E as <-; exact K|].
    intros K. exact (K _ eq_refl). }
  assert (D : existsb (is_row (j_id j)) (map job_row js) = false <-> ~ In (j_id j) (map j_id js)) by (rewrite exists_job_row; apply exists_job_id).
  assert (E : is_noid (j_id j) = false <-> j_id j <> noid) by (unfold is_noid, noid; apply N.eqb_neq).
  specialize (Hin (u_id u) users).
  unfold create_job. rewrite job_row_stored. fold j1. cbv beta iota. rewrite B.
  destruct (is_noid (j_id j)).
  { split; [split; [intros [T' X]; discriminate X|intros (X & _); apply E in X; discriminate X]|]. intros T' X; discriminate X. }
  destruct (row_ok job_schema (job_row j1)), (existsb (is_row (j_id j)) (map job_row js)), (existsb (N.eqb (u_id u)) users),
    (match at_ (job_row j1) "scheduled_job_id" with CId x => existsb (N.eqb x) scheds | _ => true end); cbn [andb negb];
  (split; [split; [intros [T' X]; try discriminate X|intros (X1 & X2 & X3 & X4 & X5);
     try (apply A in X5; discriminate X5); try (apply D in X2; discriminate X2); try (apply Hin in X3; discriminate X3);
     try (apply C in X4; discriminate X4); eauto]|]); try (intros T' X; discriminate X).
  - tauto.
  - intros T' X. injection X as <-. constructor.
    + rewrite map_app. reflexivity.
    + rewrite map_app. cbn [map]. change (j_id j1) with (j_id j). apply NoDup_snoc; auto. apply D; reflexivity.
    + apply Forall_app. split; auto. constructor; [|constructor]. constructor.
      * exists u. split; [exact U1|exact W].
      * reflexivity.
      * reflexivity.
      * change (j_tasks j1) with (map bare (j_tasks j)). rewrite Forall_map. apply Forall_forall. intros t _. apply bare_mounts.
      * change (j_schedule j1) with (kept_schedule (j_schedule j)). destruct (j_schedule j) as [[i c]|]; cbn; auto.
        destruct (is_noid i) eqn:I; cbn; [reflexivity|now rewrite I].
      * apply A2, A. reflexivity.
Qed.
Definition replace_job (i : id) (v : job) (js : list job) : list job := map (fun x => if N.eqb (j_id x) i then v else x) js.
Theorem C66_job_updated : forall T js, represents_jobs T js -> exists n0, forall n, (n0 <= n)%nat -> forall i modify,
  (forall x y, modify x = Some y -> j_id y = j_id x) ->
  match find (fun t => N.eqb (j_id t) i) js with
  | None => update_job n T i modify = None
  | Some u =>
      match modify u with
      | None => update_job n T i modify = None
      | Some u' =>
          ((exists T', update_job n T i modify = Some T') <-> storable_job (merge_job u u')) /\
          (forall T', update_job n T i modify = Some T' -> represents_jobs T' (replace_job i (merge_job u u') js))
      end
  end.
Proof.
  intros T ts R. destruct (C66_job_read T ts R) as [n0 N0]. exists n0. intros n L i modify M. specialize (N0 n L [] []).
  pose proof R as [-> ND H]. unfold update_job. rewrite N0.
  destruct (find _ ts) as [u|] eqn:E; [|reflexivity]. apply find_some in E as [Hin Ei].
  rewrite Forall_forall in H. pose proof (H u Hin) as Hu. rewrite (keep_job0 u Hu).
  destruct (modify u) as [u'|] eqn:Em; [|reflexivity].
  apply N.eqb_eq in Ei. assert (Ei' : j_id u' = i) by (rewrite (M _ _ Em); exact Ei). rewrite Ei'.
  assert (ND' : forall x, In x ts -> j_id x = i -> x = u).
  { intros x Hx Ex. subst i. clear - ND Hin Hx Ex. induction ts as [|y ts IH]; cbn in *; [tauto|].
    inversion ND as [|a l Hn Hd]; subst. destruct Hin as [->|Hin], Hx as [->|Hx]; auto.
    - destruct Hn. rewrite <- Ex. now apply in_map.
    - destruct Hn. rewrite Ex. now apply in_map. }
  assert (ET : map (fun r => if is_row i r then update r update_job_columns (update_job_args u') else r) (map job_row ts)
               = map job_row (replace_job i (merge_job u u') ts)).
  { unfold replace_job. rewrite !map_map. apply map_ext_in. intros x Hx. rewrite is_job_row.
    destruct (N.eqb (j_id x) i) eqn:Ex; [|reflexivity]. apply N.eqb_eq in Ex. rewrite (ND' x Hx Ex). apply update_job_row. }
  rewrite ET.
  assert (By : forall x, held_job x -> j_createdby x <> None) by (intros x [(y & Y & _) _ _ _ _ _]; congruence).
  assert (ByM : j_createdby (merge_job u u') <> None) by exact (By u Hu).
  assert (OK : forallb (row_ok job_schema) (map job_row (replace_job i (merge_job u u') ts)) = true <-> storable_job (merge_job u u')).
  { rewrite forallb_forall. split.
    - intro K. apply (job_accepted _ ByM), K. apply in_map. unfold replace_job. apply in_map_iff. exists u. rewrite Ei, N.eqb_refl. auto.
    - intros K r Hr. apply in_map_iff in Hr as (x & <- & Hx). unfold replace_job in Hx. apply in_map_iff in Hx as (y & <- & Hy).
      destruct (N.eqb (j_id y) i); [now apply job_accepted|]. apply job_accepted; [apply By; auto|]. apply (hj_ok y (H y Hy)). }
  destruct (forallb _ _).
  - split; [split; [intros _; apply OK; reflexivity|eauto]|]. intros T' E. injection E as <-. constructor; [reflexivity| |].
    + replace (map j_id (replace_job i (merge_job u u') ts)) with (map j_id ts); [exact ND|].
      unfold replace_job. rewrite map_map. apply map_ext_in. intros x Hx. destruct (N.eqb (j_id x) i) eqn:Ex; [|reflexivity].
      apply N.eqb_eq in Ex. rewrite (ND' x Hx Ex). destruct u. reflexivity.
    + apply Forall_forall. intros x Hx. unfold replace_job in Hx. apply in_map_iff in Hx as (y & <- & Hy).
      destruct (N.eqb (j_id y) i); [|auto]. destruct Hu as [Hb He Hp Hm Hs _]. constructor; auto. apply OK. reflexivity.
  - split; [split; [intros [T' E]; discriminate E|intro K; apply OK in K; discriminate K]|]. intros T' E. discriminate E.
Qed.
End Jobs.
Lemma job_eq (a b : job) : j_id a = j_id b -> j_parent a = j_parent b -> j_name a = j_name b -> j_description a = j_description b -> j_tags a = j_tags b -> j_state a = j_state b -> j_created a = j_created b -> j_createdby a = j_createdby b -> j_started a = j_started b -> j_completed a = j_completed b -> j_failed a = j_failed b -> j_tasks a = j_tasks b -> j_execution a = j_execution b -> j_position a = j_position b -> j_inputs a = j_inputs b -> j_context a = j_context b -> j_taskcount a = j_taskcount b -> j_output a = j_output b -> j_result a = j_result b -> j_error a = j_error b -> j_defaults a = j_defaults b -> j_webhooks a = j_webhooks b -> j_permissions a = j_permissions b -> j_autodelete a = j_autodelete b -> j_deleteat a = j_deleteat b -> j_secrets a = j_secrets b -> j_progress a = j_progress b -> j_schedule a = j_schedule b -> a = b.
Proof. destruct a, b. cbn. intros. subst. reflexivity. Qed.
(** Every step of the coordinator, from any reachable state: what the model writes to a stored job is what the SQL update stores. *)
Theorem C66_job_updates_are_whole : forall O c l c' i j, reachable O c -> step O c l c' -> find_job i (cw c) = Some j ->
  exists j', find_job i (cw c') = Some j' /\ merge_job j j' = j'.
Proof.
  intros O c l c' i j HR S E. destruct (job_step_cases _ _ _ _ _ _ HR S E) as (j' & E' & K). exists j'. split; [exact E'|].
  assert (Hd : jdef j' = jdef j) by (destruct K as [->|(o & -> & Hd & _)]; auto). clear - Hd.
  apply job_eq; match goal with |- ?f _ = ?f ?v => first [reflexivity | change (f j = f v); symmetry; change (f (jdef v) = f (jdef j)); now rewrite Hd] end.
Qed.

(** Non-vacuity: an empty table, a created task with a NUL character, a mount id and a probe, an update of two fields; a name that is
    too long; a job with a schedule. *)
Definition nul : string := String Ascii.zero "".
Definition ex_t : task := ex_nested <| t_job := 1%N |> <| t_created := Some 3 |> <| t_result := ("a" ++ nul ++ "b")%string |>
  <| t_mounts := [mkMount "m1" "volume" "" "/d" []] |> <| t_probe := Some (mkProbe "/" 80 "") |> <| t_timeout := "10s" |>.
Definition ex_mod (t : task) : option task := Some (t <| t_state := TCompleted |> <| t_name := "other" |>).
Definition ex_rows : list row := match create_task [1%N] [] ex_t with Some T => T | None => [] end.
Example C66_tasks_nonvacuous :
  represents [] [] /\ length ex_rows = 1%nat /\ get_task 5 ex_rows 7%N = Some (stored ex_t) /\
  t_result (stored ex_t) = "ab" /\ t_probe (stored ex_t) = None /\ t_probe ex_t <> None /\
  create_task [1%N] ex_rows ex_t = None /\ create_task [2%N] [] ex_t = None /\
  create_task [1%N] [] (ex_t <| t_timeout := "1h30m15.5s" |>) = None /\ create_task [1%N] [] (ex_t <| t_name := nul |>) = None /\
  (exists T', update_task 5 ex_rows 7%N ex_mod = Some T' /\
     option_map (fun t => (t_state t, t_name t, t_retry t)) (get_task 5 T' 7%N) = Some (TCompleted, "n", Some (mkRetry 3 1))).
Proof.
  split; [constructor; constructor|]. repeat match goal with |- _ /\ _ => split end; try match goal with |- _ = _ => vm_compute; reflexivity end; [discriminate|].
  eexists. split; [vm_compute; reflexivity|]. vm_compute. reflexivity.
Qed.
Definition ex_who (i : id) : option user := if N.eqb i 3 then Some ex_user else None.
Definition ex_j : job := ex_job <| j_name := "j" |> <| j_schedule := Some (mkSchedule 8%N "* * * * *") |> <| j_secrets := [("k", "v")] |>
  <| j_inputs := [("i", "")] |> <| j_progress := 5 |>.
Definition ex_jrows : list row := match create_job (fun m => m) [3%N] [8%N] [] ex_j with Some T => T | None => [] end.
Example C66_jobs_nonvacuous :
  length ex_jrows = 1%nat /\ get_job (fun m => Some m) ex_who 5 [] [] ex_jrows 9%N = Some (stored_job ex_j) /\
  j_schedule (stored_job ex_j) = Some (mkSchedule 8%N "") /\
  create_job (fun m => m) [4%N] [8%N] [] ex_j = None /\ create_job (fun m => m) [3%N] [] [] ex_j = None /\
  create_job (fun m => m) [3%N] [8%N] [] (ex_j <| j_error := nul |>) = None /\
  (exists T', update_job (fun m => Some m) ex_who 5 ex_jrows 9%N (fun j => Some (j <| j_state := JFailed |> <| j_name := "x" |>)) = Some T' /\
     option_map (fun j => (j_state j, j_name j)) (get_job (fun m => Some m) ex_who 5 [] [] T' 9%N) = Some (JFailed, "j")).
Proof. repeat match goal with |- _ /\ _ => split end; try match goal with |- _ = _ => vm_compute; reflexivity end. eexists. split; [vm_compute; reflexivity|]. vm_compute. reflexivity. Qed.
(** What is lost. *)
Theorem C66_probe_is_not_stored_refuted : exists t, storable t /\ t_probe t <> None /\ t_probe (stored t) = None.
Proof.
  exists (ex_t <| t_result := "" |>). split; [|split; [discriminate|reflexivity]].
  apply (row_accepted (ex_t <| t_result := "" |>)); [split; reflexivity|vm_compute; reflexivity].
Qed.
(** A result of a task that a worker may well report, put into the job's context, makes the update of the job fail: the zero
    character is removed from the task's own column only. *)
Theorem C66_zero_in_context_refuted : exists u u', u' = u <| j_context := (j_context u) <| c_tasks := [("x", nul)] |> |> /\
  storable_job (fun m => m) u /\ ~ storable_job (fun m => m) (merge_job u u').
Proof.
  exists ex_j. eexists. split; [reflexivity|]. split.
  - apply (job_accepted (fun m => m) ex_j); [discriminate|vm_compute; reflexivity].
  - intros [_ _ _ _ _ H _ _ _ _]. vm_compute in H. discriminate.
Qed.
Print Assumptions C66_task_created.
Print Assumptions C66_task_read.
Print Assumptions C66_task_updated.
Print Assumptions C66_task_updates_are_whole.
Print Assumptions C66_task_creation_is_whole.
Print Assumptions C66_job_read.
Print Assumptions C66_job_created.
Print Assumptions C66_job_updated.
Print Assumptions C66_job_updates_are_whole.
Print Assumptions C66_probe_is_not_stored_refuted.
Print Assumptions C66_zero_in_context_refuted.
