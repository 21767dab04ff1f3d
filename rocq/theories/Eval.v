(** eval.EvaluateTask over an arbitrary template evaluator; string/map helpers.
    Definitions only. *)
From Verif Require Export World.
From Coq Require Import Ascii.
Open Scope string_scope.
Open Scope list_scope.
Open Scope Z_scope.

Definition is_empty (s : string) : bool := String.eqb s "".

(** Go map assignment m[k] = v and lookup. *)
Fixpoint smap_set (k v : string) (m : smap) : smap :=
  match m with
  | [] => [(k, v)]
  | (k', v') :: r => if String.eqb k' k then (k, v) :: r else (k', v') :: smap_set k v r
  end.
Fixpoint smap_get (k : string) (m : smap) : option string :=
  match m with
  | [] => None
  | (k', v') :: r => if String.eqb k' k then Some v' else smap_get k r
  end.

(** strings.TrimSpace restricted to ASCII white space. *)
Definition is_space (c : ascii) : bool :=
  match nat_of_ascii c with
  | 9%nat | 10%nat | 11%nat | 12%nat | 13%nat | 32%nat => true
  | _ => false
  end.
Fixpoint trim_left (s : string) : string :=
  match s with
  | EmptyString => EmptyString
  | String c r => if is_space c then trim_left r else s
  end.
Fixpoint srev_app (s acc : string) : string :=
  match s with EmptyString => acc | String c r => srev_app r (String c acc) end.
Definition srev (s : string) : string := srev_app s "".
Definition trim_space (s : string) : string := srev (trim_left (srev (trim_left s))).

(** The expression engine (github.com/expr-lang/expr) and time.ParseDuration are oracles.
    - [o_tmpl c item s]: eval.EvaluateTemplate(s, c.AsMap() + the each variable), eval.go:139-160;
      [item] is the each variable's name, index and element (scheduler.go:229-232);
    - [o_list c s]: eval.EvaluateExpr(s, c.AsMap()) when it is a slice ([inl (Some l)]), another
      value ([inl None]) or an error, scheduler.go:195-211;
    - [o_dur s]: time.ParseDuration.
    Evaluation is a function of its arguments: templates calling randomInt are outside the model. *)
Record oracle := mkOracle {
  o_val : Type;
  o_tmpl : jobctx -> option (string * Z * o_val) -> string -> string + string;
  o_list : jobctx -> string -> option (list o_val) + string;
  o_dur : string -> option Z }.

Section EvalTask.
Variable f : string -> string + string.

(** eval.go:42-48: every value of a map. *)
Fixpoint eval_map (m : smap) : smap + string :=
  match m with
  | [] => inl []
  | (k, v) :: r =>
      match f v with
      | inr e => inr e
      | inl v' => match eval_map r with inr e => inr e | inl r' => inl ((k, v') :: r') end
      end
  end.
(** eval.go:85-93 *)
Fixpoint eval_strings (l : list string) : list string + string :=
  match l with
  | [] => inl []
  | v :: r =>
      match f v with
      | inr e => inr e
      | inl v' => match eval_strings r with inr e => inr e | inl r' => inl (v' :: r') end
      end
  end.
(** eval.go:118-134 *)
Fixpoint eval_webhooks (l : list webhook) : list webhook + string :=
  match l with
  | [] => inl []
  | h :: r =>
      match f (wh_url h) with
      | inr e => inr e
      | inl u =>
          match eval_map (wh_headers h) with
          | inr e => inr e
          | inl hs =>
              match eval_webhooks r with
              | inr e => inr e
              | inl r' => inl ((h <| wh_url := u |> <| wh_headers := hs |>) :: r')
              end
          end
      end
  end.
(** eval.go:95-135. Sub-job tasks are not evaluated here. *)
Definition eval_subjob (s : subjobT task) : subjobT task + string :=
  match f (s_name s) with
  | inr e => inr e
  | inl n =>
      match eval_map (s_inputs s) with
      | inr e => inr e
      | inl i =>
          match eval_map (s_secrets s) with
          | inr e => inr e
          | inl sc =>
              match eval_webhooks (s_webhooks s) with
              | inr e => inr e
              | inl wh => inl (s <| s_name := n |> <| s_inputs := i |> <| s_secrets := sc |> <| s_webhooks := wh |>)
              end
          end
      end
  end.

Section EvalList.
Variable g : task -> task + string.
Fixpoint eval_list (l : list task) : list task + string :=
  match l with
  | [] => inl []
  | t :: r =>
      match g t with
      | inr e => inr e
      | inl t' => match eval_list r with inr e => inr e | inl r' => inl (t' :: r') end
      end
  end.
End EvalList.

(** eval.go:15-137.  Simplification: on error the Go code leaves the fields evaluated so
    far modified in place; here the task is returned unevaluated by the callers. *)
Fixpoint eval_task (t : task) : task + string :=
  match f (t_name t) with inr e => inr e | inl nm =>
  match f (t_var t) with inr e => inr e | inl vr =>
  match f (t_image t) with inr e => inr e | inl im =>
  match f (t_queue t) with inr e => inr e | inl qu =>
  match eval_map (t_env t) with inr e => inr e | inl en =>
  match f (t_if t) with inr e => inr e | inl fi =>
  match eval_list eval_task (t_pre t) with inr e => inr e | inl pr =>
  match eval_list eval_task (t_post t) with inr e => inr e | inl po =>
  match (match t_parallel t with
         | None => inl None
         | Some p => match eval_list eval_task (p_tasks p) with
                     | inr e => inr e
                     | inl ts => inl (Some (mkParallel ts (p_completions p)))
                     end
         end) with inr e => inr e | inl pa =>
  match eval_strings (t_cmd t) with inr e => inr e | inl cm =>
  match (match t_subjob t with
         | None => inl None
         | Some s => match eval_subjob s with inr e => inr e | inl s' => inl (Some s') end
         end) with inr e => inr e | inl sj =>
    inl (t <| t_name := nm |> <| t_var := vr |> <| t_image := im |> <| t_queue := qu |>
           <| t_env := en |> <| t_if := fi |> <| t_pre := pr |> <| t_post := po |>
           <| t_parallel := pa |> <| t_cmd := cm |> <| t_subjob := sj |>)
  end end end end end end end end end end end.
End EvalTask.

Section ZipTasks.
Variable g : task -> task -> task.
Fixpoint zip_tasks (l m : list task) : list task :=
  match l, m with
  | t :: r, d :: r' => g t d :: zip_tasks r r'
  | _, _ => l
  end.
End ZipTasks.
(** eval.go:86-93 assigns the evaluated strings to the elements of [t.CMD] in place, and a clone
    shares that slice with its original (task.go:200).  [write_cmds t d]: the task [t] after a clone
    of it was evaluated to [d], at every depth EvaluateTask goes to (eval.go:57-84). *)
Fixpoint write_cmds (t d : task) : task :=
  t <| t_cmd := t_cmd d |>
    <| t_pre := zip_tasks write_cmds (t_pre t) (t_pre d) |>
    <| t_post := zip_tasks write_cmds (t_post t) (t_post d) |>
    <| t_parallel := match t_parallel t, t_parallel d with
                     | Some p, Some p' => Some (mkParallel (zip_tasks write_cmds (p_tasks p) (p_tasks p')) (p_completions p))
                     | o, _ => o
                     end |>.

(** EvaluateTask(t, c.AsMap()) and EvaluateTask(t, cx) with the each variable. *)
Definition evaluate_task (O : oracle) (t : task) (c : jobctx) : task + string :=
  eval_task (o_tmpl O c None) t.
Definition evaluate_each_task (O : oracle) (t : task) (c : jobctx) (v : string) (ix : Z) (x : o_val O) : task + string :=
  eval_task (o_tmpl O c (Some (v, ix, x))) t.
