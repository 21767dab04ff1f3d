(** C55: exposure of host variables to tasks.  middleware/task/hostenv.go:12-52. *)
From Coq Require Import Permutation Ascii.
From Verif Require Import Types.
Open Scope string_scope.
Open Scope list_scope.

(* ------------------------------------------------------------------ *)
(** * Model *)
(** strings.Split(s, ":") *)
Fixpoint split_colon (s : string) : list string :=
  match s with
  | EmptyString => [""]
  | String c r => if Ascii.eqb c ":"%char then "" :: split_colon r
                  else match split_colon r with
                       | x :: xs => String c x :: xs
                       | [] => [String c ""]
                       end
  end.

(** maps as association lists without duplicate keys *)
Fixpoint mput {V} (m : list (string * V)) (k : string) (v : V) : list (string * V) :=
  match m with
  | [] => [(k, v)]
  | (k', v') :: m => if String.eqb k' k then (k, v) :: m else (k', v') :: mput m k v
  end.
Fixpoint mget {V} (m : list (string * V)) (k : string) : option V :=
  match m with [] => None | (k', v) :: m => if String.eqb k' k then Some v else mget m k end.

(** hostenv.go:16-29: host variable name -> name in the task; [None] is the error *)
Fixpoint new_host_env (specs : list string) (m : list (string * string)) : option (list (string * string)) :=
  match specs with
  | [] => Some m
  | s :: specs =>
      match split_colon s with
      | [x] => new_host_env specs (mput m s s)
      | [x; y] => new_host_env specs (mput m x y)
      | _ => None
      end
  end.

(** hostenv.go:40-52.  [order] gives the order in which the map is walked at a call; os.Getenv of an unset variable is ""
    ([host]); the recursion into pre and post tasks is the code's. *)
Section SetVars.
Variable host : string -> string.
Variable vars : list (string * string).
Definition set_env (order : list (string * string)) (env : smap) : smap :=
  fold_left (fun env p => mput env (snd p) (host (fst p))) order env.
Variable order_of : task -> list (string * string).
Fixpoint set_host_vars (t : task) : task :=
  mkTask (t_id t) (t_job t) (t_parent t) (t_position t) (t_name t) (t_description t) (t_state t) (t_created t)
    (t_scheduled t) (t_started t) (t_completed t) (t_failed t) (t_cmd t) (t_entrypoint t) (t_run t) (t_image t)
    (t_registry t) (set_env (order_of t) (t_env t)) (t_files t) (t_queue t) (t_redelivered t) (t_error t)
    (map set_host_vars (t_pre t)) (map set_host_vars (t_post t)) (t_sidecars t) (t_mounts t) (t_networks t) (t_node t)
    (t_retry t) (t_limits t) (t_timeout t) (t_result t) (t_var t) (t_if t) (t_parallel t) (t_each t) (t_subjob t)
    (t_gpus t) (t_tags t) (t_workdir t) (t_priority t) (t_progress t) (t_probe t).
(** hostenv.go:31-38 (the event is a state change or not) *)
Definition execute (state_change : bool) (t : task) : task :=
  if state_change && tstate_eqb (t_state t) TRunning then set_host_vars t else t.
End SetVars.

(* ------------------------------------------------------------------ *)
(** * Specification *)
(** what a spec exposes: "A" exposes host variable A as A, "A:B" exposes it as B *)
Inductive spec_exposes : string -> string -> string -> Prop :=
| se_same s : ~ In ":"%char (list_ascii_of_string s) -> spec_exposes s s s
| se_alias a b : ~ In ":"%char (list_ascii_of_string a) -> ~ In ":"%char (list_ascii_of_string b) ->
    spec_exposes (a ++ ":" ++ b)%string a b.

(** variable [k] of an environment, after exposing [vars] over [env] *)
Definition exposed (host : string -> string) (vars : list (string * string)) (env env' : smap) : Prop :=
  forall k, (~ In k (map snd vars) -> mget env' k = mget env k) /\
            (In k (map snd vars) -> exists name, In (name, k) vars /\ mget env' k = Some (host name)).

(* ------------------------------------------------------------------ *)
(** * Proofs *)
Lemma mget_mput {V} (m : list (string * V)) k v k' : mget (mput m k v) k' = if String.eqb k k' then Some v else mget m k'.
Proof.
  induction m as [|[a b] m IH]; cbn.
  - destruct (String.eqb k k'); reflexivity.
  - destruct (String.eqb_spec a k) as [->|Hne]; cbn.
    + destruct (String.eqb k k'); reflexivity.
    + rewrite IH. destruct (String.eqb_spec a k') as [->|]; [|reflexivity]. destruct (String.eqb_spec k k'); [congruence|reflexivity].
Qed.
Lemma in_mput {V} (m : list (string * V)) k v p : In p (mput m k v) -> p = (k, v) \/ In p m.
Proof. induction m as [|[a b] m IH]; cbn; [intuition|]. destruct (String.eqb_spec a k) as [->|]; cbn; intuition. Qed.
Lemma mput_in {V} (m : list (string * V)) k v : In (k, v) (mput m k v).
Proof. induction m as [|[a b] m IH]; cbn; [auto|]. destruct (String.eqb_spec a k); cbn; auto. Qed.

Lemma set_env_exposes host order env : exposed host order env (set_env host order env).
Proof.
  unfold exposed, set_env. revert env. induction order as [|[n a] order IH]; intros env k; cbn.
  - split; [reflexivity|intros []].
  - destruct (IH (mput env a (host n)) k) as [I1 I2]. destruct (in_dec string_dec k (map snd order)) as [Hin|Hnin].
    + split; [tauto|]. intros _. destruct (I2 Hin) as (name & Hn & E). exists name. auto.
    + rewrite (I1 Hnin), mget_mput. split.
      * intros Hk. destruct (String.eqb_spec a k); [exfalso; apply Hk; auto|reflexivity].
      * intros [->|Hk]; [|tauto]. exists n. rewrite String.eqb_refl. auto.
Qed.

Lemma split_nonempty s : split_colon s <> [].
Proof. destruct s as [|c s]; cbn; [discriminate|]. destruct (Ascii.eqb c ":"%char); [discriminate|]. destruct (split_colon s); discriminate. Qed.
Lemma split_one s x : split_colon s = [x] -> x = s /\ ~ In ":"%char (list_ascii_of_string s).
Proof.
  revert x. induction s as [|c s IH]; intros x; cbn.
  - intros [= <-]. auto.
  - destruct (Ascii.eqb_spec c ":"%char) as [->|Hne].
    + intros [= _ E]. now apply split_nonempty in E.
    + destruct (split_colon s) as [|y ys] eqn:Es; [now destruct (split_nonempty s)|].
      intros [= <- ->]. destruct (IH y eq_refl) as [-> Hn]. split; [reflexivity|]. cbn. intros [E|E]; [congruence|auto].
Qed.
Lemma split_two s x y : split_colon s = [x; y] -> s = (x ++ ":" ++ y)%string /\ ~ In ":"%char (list_ascii_of_string x) /\ ~ In ":"%char (list_ascii_of_string y).
Proof.
  revert x y. induction s as [|c s IH]; intros x y; cbn; [discriminate|].
  destruct (Ascii.eqb_spec c ":"%char) as [->|Hne].
  - intros [= <- E]. apply split_one in E as [-> Hn]. split; [reflexivity|]. split; [cbn; tauto|assumption].
  - destruct (split_colon s) as [|z zs] eqn:Es; [discriminate|]. intros [= <- ->]. destruct (IH z y eq_refl) as (-> & Hn & Hm).
    split; [reflexivity|]. split; [|assumption]. cbn. intros [E|E]; [congruence|auto].
Qed.
Lemma split_none s : ~ In ":"%char (list_ascii_of_string s) -> split_colon s = [s].
Proof.
  induction s as [|c s IH]; cbn; [reflexivity|]. intros H. destruct (Ascii.eqb_spec c ":"%char) as [->|Hne]; [exfalso; apply H; auto|].
  rewrite IH by (intros E; apply H; auto). reflexivity.
Qed.
Lemma split_alias a b : ~ In ":"%char (list_ascii_of_string a) -> ~ In ":"%char (list_ascii_of_string b) -> split_colon (a ++ ":" ++ b) = [a; b].
Proof.
  intros Ha Hb. induction a as [|c a IH]; cbn.
  - now rewrite split_none.
  - destruct (Ascii.eqb_spec c ":"%char) as [->|Hne]; [exfalso; apply Ha; cbn; auto|]. cbn in IH. rewrite IH; [reflexivity|]. intros E. apply Ha. cbn. auto.
Qed.

(** A configuration is accepted iff each spec is "NAME" or "NAME:ALIAS"; then the variables exposed are those the specs
    say, a later spec for the same host variable replacing an earlier one. *)
Fixpoint last_alias (specs : list string) (name : string) : option string :=
  match specs with
  | [] => None
  | s :: specs => match last_alias specs name with
                  | Some a => Some a
                  | None => match split_colon s with
                            | [x] => if String.eqb s name then Some s else None
                            | [x; y] => if String.eqb x name then Some y else None
                            | _ => None
                            end
                  end
  end.
Lemma last_alias_spec specs name a : last_alias specs name = Some a -> exists s, In s specs /\ spec_exposes s name a.
Proof.
  induction specs as [|s specs IH]; cbn; [discriminate|]. destruct (last_alias specs name).
  { intros [= <-]. destruct (IH eq_refl) as (s' & Hs & E). exists s'. auto. }
  destruct (split_colon s) as [|x [|y [|]]] eqn:E; try discriminate.
  - destruct (String.eqb_spec s name) as [->|]; [|discriminate]. intros [= <-]. exists name. split; [auto|]. constructor. now apply split_one in E.
  - destruct (String.eqb_spec x name) as [->|]; [|discriminate]. intros [= <-]. exists s. split; [auto|]. apply split_two in E as (-> & ? & ?). now constructor.
Qed.
Theorem C55_configuration : forall specs,
  (new_host_env specs [] <> None <-> forall s, In s specs -> exists name alias, spec_exposes s name alias) /\
  forall vars, new_host_env specs [] = Some vars ->
    (forall name, mget vars name = last_alias specs name) /\
    (forall name alias, mget vars name = Some alias -> exists s, In s specs /\ spec_exposes s name alias).
Proof.
  assert (G : forall specs m,
    (new_host_env specs m <> None <-> forall s, In s specs -> exists name alias, spec_exposes s name alias) /\
    forall vars, new_host_env specs m = Some vars -> forall name, mget vars name = match last_alias specs name with Some a => Some a | None => mget m name end).
  { induction specs as [|s specs IH]; intros m; cbn.
    - split; [split; [intros _ s []|discriminate]|]. intros vars [= <-]. auto.
    - assert (Hs : forall name alias, spec_exposes s name alias -> split_colon s = [s] /\ name = s /\ alias = s \/ split_colon s = [name; alias]).
      { intros name alias H. destruct H; [left; auto using split_none|right; now apply split_alias]. }
      destruct (split_colon s) as [|x [|y [|z zs]]] eqn:E.
      + now apply split_nonempty in E.
      + apply split_one in E as [-> Hn]. destruct (IH (mput m s s)) as [I1 I2]. split.
        * rewrite I1. split; [intros H s' [<-|Hin]; [exists s, s; now constructor|auto]|auto].
        * intros vars Hv name. rewrite (I2 _ Hv), mget_mput. destruct (last_alias specs name); [reflexivity|]. destruct (String.eqb s name); reflexivity.
      + pose proof E as E'. apply split_two in E' as (Es & Hx & Hy). destruct (IH (mput m x y)) as [I1 I2]. split.
        * rewrite I1. split; [intros H s' [<-|Hin]; [rewrite Es; exists x, y; now constructor|auto]|auto].
        * intros vars Hv name. rewrite (I2 _ Hv), mget_mput. destruct (last_alias specs name); [reflexivity|]. destruct (String.eqb x name); reflexivity.
      + split; [|discriminate]. split; [congruence|]. intros H. destruct (H s (or_introl eq_refl)) as (n & a & Hsa).
        destruct (Hs _ _ Hsa) as [(E1 & _)|E1]; discriminate. }
  intros specs. destruct (G specs []) as [G1 G2]. split; [assumption|]. intros vars Hv.
  assert (K : forall name, mget vars name = last_alias specs name).
  { intros name. rewrite (G2 _ Hv). destruct (last_alias specs name); reflexivity. }
  split; [assumption|]. intros name alias. rewrite K. apply last_alias_spec.
Qed.
Print Assumptions C55_configuration.

(** the tasks reached: the task itself, its pre and post tasks, theirs, and so on *)
Inductive exposes_task (host : string -> string) (vars : list (string * string)) : task -> task -> Prop :=
| et t t' : exposed host vars (t_env t) (t_env t') ->
    Forall2 (exposes_task host vars) (t_pre t) (t_pre t') ->
    Forall2 (exposes_task host vars) (t_post t) (t_post t') ->
    t' = t <| t_env := t_env t' |> <| t_pre := t_pre t' |> <| t_post := t_post t' |> ->
    exposes_task host vars t t'.

Lemma exposed_perm host v1 v2 env env' : Permutation v1 v2 -> exposed host v1 env env' -> exposed host v2 env env'.
Proof.
  intros P H k. destruct (H k) as [H1 H2]. split.
  - intros Hn. apply H1. intros Hin. apply Hn. eapply Permutation_in; [apply Permutation_map; eassumption|assumption].
  - intros Hin. destruct H2 as (n & Hn & E); [eapply Permutation_in; [apply Permutation_map; symmetry; eassumption|assumption]|].
    exists n. split; [eapply Permutation_in; eassumption|assumption].
Qed.

(** At the moment a task starts, the configured host variables, and nothing else, are put in its environment and in
    those of its pre and post tasks at every depth, whatever the order in which the map is walked; all other fields,
    and all other environment variables, stay as they are. *)
Theorem C55_exactly_the_configured : forall host vars order_of t,
  (forall t, Permutation vars (order_of t)) ->
  exposes_task host vars t (set_host_vars host order_of t).
Proof.
  intros host vars order_of t Ho. revert t. fix IH 1. intros t. 
  assert (Hp : forall l, Forall2 (exposes_task host vars) l (map (set_host_vars host order_of) l)).
  { fix IHl 1. intros [|x l]; [constructor|]. cbn. constructor; [apply IH|apply IHl]. }
  destruct t. cbn. constructor; cbn.
  - eapply exposed_perm; [symmetry; apply Ho|]. apply set_env_exposes.
  - apply Hp.
  - apply Hp.
  - reflexivity.
Qed.
Print Assumptions C55_exactly_the_configured.

(** and only then: on any other event or state the task is untouched *)
Theorem C55_only_when_starting : forall host order_of sc t,
  execute host order_of sc t <> t -> sc = true /\ t_state t = TRunning.
Proof.
  intros host order_of sc t. unfold execute. destruct sc; cbn; [|congruence]. destruct (t_state t); cbn; try congruence. auto.
Qed.
Print Assumptions C55_only_when_starting.

(** if two host variables are given the same name, which one the task sees depends on the order of a map walk *)
Theorem C55_colliding_aliases_refuted : exists host vars o1 o2 env,
  Permutation vars o1 /\ Permutation vars o2 /\ mget (set_env host o1 env) "X" <> mget (set_env host o2 env) "X".
Proof.
  exists (fun n => n), [("A", "X"); ("B", "X")], [("A", "X"); ("B", "X")], [("B", "X"); ("A", "X")], [].
  split; [reflexivity|]. split; [apply perm_swap|]. cbn. discriminate.
Qed.
Print Assumptions C55_colliding_aliases_refuted.

Example C55_nonvacuous : new_host_env ["A"; "B:C"] [] = Some [("A", "A"); ("B", "C")] /\ new_host_env ["A:B:C"] [] = None /\
  set_env (fun n => ("host-" ++ n)%string) [("A", "A"); ("B", "C")] [("A", "old"); ("Z", "z")] = [("A", "host-A"); ("Z", "z"); ("C", "host-B")].
Proof. repeat split. Qed.
