(** Clone functions of task.go, job.go, mount.go, user.go, role.go at value level
    (sharing of mutable parts: CloneHeap.v). Definitions only. *)
From Verif Require Export Types.
Open Scope string_scope.
Open Scope Z_scope.

(** task.go:242-254,294-307; job.go:339-343; mount.go:19-27; job.go:312-319 *)
Definition clone_retry (r : retry) : retry := mkRetry (r_limit r) (r_attempts r).
Definition clone_limits (l : limits) : limits := mkLimits (l_cpus l) (l_memory l).
Definition clone_registry (r : registry) : registry := mkRegistry (rg_username r) (rg_password r).
Definition clone_probe (p : probe) : probe := mkProbe (pb_path p) (pb_port p) (pb_timeout p).
Definition clone_autodelete (a : autodelete) : autodelete := mkAutoDelete (ad_after a).
Definition clone_mount (m : mount) : mount := mkMount (m_id m) (m_type m) (m_source m) (m_target m) (m_opts m).
Definition clone_webhook (w : webhook) : webhook := mkWebhook (wh_url w) (wh_headers w) (wh_event w) (wh_if w).

(** task.go:159-240,256-292: [Redelivered] is not copied. *)
Fixpoint clone_task (t : task) : task :=
  mkTask
    (t_id t) (t_job t) (t_parent t) (t_position t) (t_name t) (t_description t) (t_state t)
    (t_created t) (t_scheduled t) (t_started t) (t_completed t) (t_failed t)
    (t_cmd t) (t_entrypoint t) (t_run t) (t_image t)
    (option_map clone_registry (t_registry t))
    (t_env t) (t_files t) (t_queue t)
    0 (* Redelivered: absent from the literal at task.go:188-231 *)
    (t_error t)
    (map clone_task (t_pre t)) (map clone_task (t_post t)) (map clone_task (t_sidecars t))
    (map clone_mount (t_mounts t)) (t_networks t) (t_node t)
    (option_map clone_retry (t_retry t)) (option_map clone_limits (t_limits t))
    (t_timeout t) (t_result t) (t_var t) (t_if t)
    (match t_parallel t with
     | None => None
     | Some p => Some (mkParallel (map clone_task (p_tasks p)) (p_completions p)) end)
    (match t_each t with
     | None => None
     | Some e => Some (mkEach (e_var e) (e_list e) (clone_task (e_task e)) (e_size e)
                         (e_completions e) (e_concurrency e) (e_index e)) end)
    (match t_subjob t with
     | None => None
     | Some s => Some (mkSubJob (s_id s) (s_name s) (s_description s) (map clone_task (s_tasks s))
                         (s_inputs s) (s_secrets s) (option_map clone_autodelete (s_autodelete s))
                         (s_output s) (s_detached s) (map clone_webhook (s_webhooks s))) end)
    (t_gpus t) (t_tags t) (t_workdir t) (t_priority t) (t_progress t)
    (option_map clone_probe (t_probe t)).

(** user.go:22-31: [Password] is not copied.  role.go:16-23. *)
Definition clone_user (u : user) : user :=
  mkUser (u_id u) (u_name u) (u_username u) (u_passhash u) "" (u_created u) (u_disabled u).
Definition clone_role (r : role) : role := mkRole (ro_id r) (ro_slug r) (ro_name r) (ro_created r).
(** job.go:329-337.  [None] is the nil dereference of a permission with neither role nor user. *)
Definition clone_permission (p : permission) : option permission :=
  match pm_role p with
  | Some r => Some (mkPermission (Some (clone_role r)) None)
  | None => match pm_user p with
            | Some u => Some (mkPermission None (Some (clone_user u)))
            | None => None
            end
  end.
Fixpoint clone_permissions (l : list permission) : option (list permission) :=
  match l with
  | [] => Some []
  | p :: r => match clone_permission p, clone_permissions r with
              | Some p', Some r' => Some (p' :: r')
              | _, _ => None
              end
  end.
(** job.go:235-242,253-265,83-88 *)
Definition clone_ctx (c : jobctx) : jobctx := mkCtx (c_job c) (c_inputs c) (c_secrets c) (c_tasks c).
Definition clone_defaults (d : jobdefaults) : jobdefaults :=
  mkDefaults (option_map clone_retry (d_retry d)) (option_map clone_limits (d_limits d))
    (d_timeout d) (d_queue d) (d_priority d).
Definition clone_schedule (s : jobschedule) : jobschedule := mkSchedule (sc_id s) (sc_cron s).
(** job.go:154-200: [DeleteAt] is not copied. *)
Definition clone_job (j : job) : option job :=
  match clone_permissions (j_permissions j) with
  | None => None
  | Some ps => Some (mkJob
      (j_id j) (j_parent j) (j_name j) (j_description j) (j_tags j) (j_state j) (j_created j)
      (option_map clone_user (j_createdby j)) (j_started j) (j_completed j) (j_failed j)
      (map clone_task (j_tasks j)) (map clone_task (j_execution j)) (j_position j)
      (j_inputs j) (clone_ctx (j_context j)) (j_taskcount j) (j_output j) (j_result j) (j_error j)
      (option_map clone_defaults (j_defaults j)) (map clone_webhook (j_webhooks j)) ps
      (option_map clone_autodelete (j_autodelete j))
      None (* DeleteAt: absent from the literal at job.go:171-199 *)
      (j_secrets j) (j_progress j) (option_map clone_schedule (j_schedule j)))
  end.
