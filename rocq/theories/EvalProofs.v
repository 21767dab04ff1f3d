(** Induction over nested tasks; what evaluation and cloning leave unchanged. *)
From Verif Require Export System.
Open Scope string_scope.
Open Scope list_scope.
Open Scope Z_scope.

(** Induction principle with hypotheses for every nested task. *)
Section TaskInd.
Variable P : task -> Prop.
Definition sub_ok (t : task) : Prop :=
  Forall P (t_pre t) /\ Forall P (t_post t) /\ Forall P (t_sidecars t) /\
  (forall p, t_parallel t = Some p -> Forall P (p_tasks p)) /\
  (forall e, t_each t = Some e -> P (e_task e)) /\
  (forall s, t_subjob t = Some s -> Forall P (s_tasks s)).
Hypothesis step : forall t, sub_ok t -> P t.
Fixpoint task_nested_ind (t : task) : P t.
Proof.
  pose (all := fix all (l : list task) : Forall P l :=
     match l with [] => Forall_nil P | x :: r => Forall_cons x (task_nested_ind x) (all r) end).
  apply step. destruct t. unfold sub_ok; cbn.
  refine (conj (all _) (conj (all _) (conj (all _) (conj _ (conj _ _))))).
  - intros p E. destruct t_parallel as [q|]; [|discriminate]. injection E as <-. destruct q; cbn. apply all.
  - intros p E. destruct t_each as [q|]; [|discriminate]. injection E as <-. destruct q; cbn. apply task_nested_ind.
  - intros p E. destruct t_subjob as [q|]; [|discriminate]. injection E as <-. destruct q; cbn. apply all.
Defined.
End TaskInd.

Lemma fold_pristine l : fold_right (fun c P => pristine c /\ P) True l <-> Forall pristine l.
Proof.
  induction l as [|x l IH]; cbn; [split; constructor|]. rewrite IH. split.
  - intros [? ?]; constructor; auto.
  - intros H; inversion H; auto.
Qed.

(** [pristine] unfolded once. *)
Lemma pristine_eq t : pristine t <->
  t_id t = noid /\ t_job t = noid /\ t_parent t = noid /\ t_redelivered t = 0 /\ t_node t = noid /\
  t_error t = "" /\ t_result t = "" /\ t_progress t = 0 /\
  t_failed t = None /\ t_completed t = None /\ t_started t = None /\ t_scheduled t = None /\
  match t_retry t with Some r => r_attempts r = 0 | None => True end /\
  match t_parallel t with
  | Some p => p_completions p = 0 /\ Forall pristine (p_tasks p)
  | None => True end /\
  match t_each t with
  | Some e => e_completions e = 0 /\ e_size e = 0 /\ e_index e = 0 /\ pristine (e_task e)
  | None => True end /\
  match t_subjob t with
  | Some s => s_id s = noid /\ Forall pristine (s_tasks s)
  | None => True end.
Proof.
  destruct t; cbn. destruct t_parallel, t_subjob; rewrite ?fold_pristine; tauto.
Qed.

Section Frame.
Variable f : string -> string + string.

(** What [eval_task] may change. *)
Definition eval_frame (t t' : task) : Prop :=
  exists nm vr im qu en fi pr po pa cm sj,
    t' = t <| t_name := nm |> <| t_var := vr |> <| t_image := im |> <| t_queue := qu |>
           <| t_env := en |> <| t_if := fi |> <| t_pre := pr |> <| t_post := po |>
           <| t_parallel := pa |> <| t_cmd := cm |> <| t_subjob := sj |> /\
    f (t_name t) = inl nm /\ f (t_var t) = inl vr /\ f (t_image t) = inl im /\ f (t_queue t) = inl qu /\
    eval_map f (t_env t) = inl en /\ f (t_if t) = inl fi /\
    eval_list (eval_task f) (t_pre t) = inl pr /\ eval_list (eval_task f) (t_post t) = inl po /\
    match t_parallel t with
    | None => pa = None
    | Some p => exists ts, eval_list (eval_task f) (p_tasks p) = inl ts /\ pa = Some (mkParallel ts (p_completions p))
    end /\
    eval_strings f (t_cmd t) = inl cm /\
    match t_subjob t with
    | None => sj = None
    | Some s => exists s', eval_subjob f s = inl s' /\ sj = Some s'
    end.

Lemma eval_task_frame t t' : eval_task f t = inl t' -> eval_frame t t'.
Proof.
  intros H. destruct t. cbn in H.
  repeat match type of H with
  | match ?x with _ => _ end = _ =>
      lazymatch x with
      | t_parallel => fail
      | t_subjob => fail
      | _ => destruct x eqn:?; [|discriminate]
      end
  end.
  injection H as <-.
  unfold eval_frame; cbn. do 11 eexists. repeat split; try eassumption.
  - destruct t_parallel as [p|]; [|congruence].
    destruct (eval_list (eval_task f) (p_tasks p)) eqn:E; [|discriminate].
    match goal with H : inl _ = inl _ |- _ => injection H as <- end. eauto.
  - destruct t_subjob as [p|]; [|congruence].
    destruct (eval_subjob f p) eqn:E; [|discriminate].
    match goal with H : inl _ = inl _ |- _ => injection H as <- end. eauto.
Qed.

Lemma eval_subjob_frame s s' : eval_subjob f s = inl s' ->
  exists nm ins secs whs,
    s' = s <| s_name := nm |> <| s_inputs := ins |> <| s_secrets := secs |> <| s_webhooks := whs |> /\
    f (s_name s) = inl nm /\ eval_map f (s_inputs s) = inl ins /\ eval_map f (s_secrets s) = inl secs /\
    eval_webhooks f (s_webhooks s) = inl whs.
Proof.
  unfold eval_subjob. intros H.
  repeat match type of H with match ?x with _ => _ end = _ => destruct x eqn:?; [|discriminate] end.
  injection H as <-. eauto 10.
Qed.

Lemma eval_list_forall2 g l l' : eval_list g l = inl l' -> Forall2 (fun t t' => g t = inl t') l l'.
Proof.
  revert l'. induction l as [|t r IH]; cbn; intros l' H.
  - injection H as <-. constructor.
  - destruct (g t) eqn:E; [|discriminate]. destruct (eval_list g r) eqn:E2; [|discriminate].
    injection H as <-. constructor; auto.
Qed.

(** The fields evaluation never touches. *)
Definition same_core (t t' : task) : Prop :=
  t_id t' = t_id t /\ t_job t' = t_job t /\ t_parent t' = t_parent t /\ t_position t' = t_position t /\
  t_state t' = t_state t /\ t_created t' = t_created t /\ t_scheduled t' = t_scheduled t /\
  t_started t' = t_started t /\ t_completed t' = t_completed t /\ t_failed t' = t_failed t /\
  t_redelivered t' = t_redelivered t /\ t_error t' = t_error t /\ t_node t' = t_node t /\
  t_retry t' = t_retry t /\ t_limits t' = t_limits t /\ t_timeout t' = t_timeout t /\
  t_result t' = t_result t /\ t_each t' = t_each t /\ t_priority t' = t_priority t /\
  t_progress t' = t_progress t.

Lemma eval_task_core t t' : eval_task f t = inl t' -> same_core t t'.
Proof.
  intros H. apply eval_task_frame in H as (?&?&?&?&?&?&?&?&?&?&?& -> & _).
  unfold same_core; cbn; repeat split.
Qed.

Lemma eval_pristine t : forall t', pristine t -> eval_task f t = inl t' -> pristine t'.
Proof.
  induction t as [t (_ & _ & _ & IHp & _ & IHs)] using task_nested_ind.
  intros t' Hp H. apply eval_task_frame in H
    as (nm&vr&im&qu&en&fi&pr&po&pa&cm&sj& -> & _ & _ & _ & _ & _ & _ & _ & _ & Hpa & _ & Hsj).
  apply pristine_eq in Hp. apply pristine_eq. cbn.
  destruct Hp as (?&?&?&?&?&?&?&?&?&?&?&?&?& H1 & ? & H2).
  repeat (split; [assumption|]). split; [|split; [assumption|]].
  - destruct (t_parallel t) as [p|]; [|now subst]. destruct Hpa as (ts & Hl & ->). cbn.
    destruct H1 as [? H1]. split; [assumption|]. apply eval_list_forall2 in Hl.
    specialize (IHp p eq_refl). clear - Hl IHp H1. induction Hl; constructor.
    + inversion IHp; inversion H1; subst; eauto.
    + inversion IHp; inversion H1; subst; eauto.
  - destruct (t_subjob t) as [s|]; [|now subst]. destruct Hsj as (s' & Hs & ->).
    apply eval_subjob_frame in Hs as (?&?&?&?& -> & _). cbn. exact H2.
Qed.

End Frame.

Lemma clone_pristine t : pristine t -> pristine (clone_task t).
Proof.
  induction t as [t (_ & _ & _ & IHp & IHe & IHs)] using task_nested_ind.
  intros Hp. apply pristine_eq in Hp. apply pristine_eq. destruct t; cbn in *.
  destruct Hp as (?&?&?&?&?&?&?&?&?&?&?&?&?& H1 & H2 & H3).
  repeat (split; [assumption || reflexivity|]). split; [|split; [|split]].
  - destruct t_retry; cbn; auto.
  - destruct t_parallel as [p|]; [|auto]. cbn. destruct H1 as [? H1]; split; [assumption|].
    specialize (IHp _ eq_refl). clear - IHp H1. induction H1; cbn; constructor; inversion IHp; auto.
  - destruct t_each as [p|]; [|auto]. cbn. destruct H2 as (?&?&?&H2); repeat (split; [assumption|]).
    apply IHe; auto.
  - destruct t_subjob as [p|]; [|auto]. cbn. destruct H3 as [? H3]; split; [assumption|].
    specialize (IHs _ eq_refl). clear - IHs H3. induction H3; cbn; constructor; inversion IHs; auto.
Qed.

(** [write_cmds] changes nothing but commands. *)
Lemma write_cmds_pristine t : forall d, pristine t -> pristine (write_cmds t d).
Proof.
  induction t as [t (_ & _ & _ & IHp & _ & _)] using task_nested_ind.
  intros d Hp. apply pristine_eq in Hp. apply pristine_eq. destruct t; cbn in *.
  destruct Hp as (?&?&?&?&?&?&?&?&?&?&?&?&?& H1 & H2 & H3).
  repeat (split; [assumption|]). split; [|split; assumption].
  destruct t_parallel as [p|]; [|exact H1]. destruct (Types.t_parallel d) as [p'|]; [|exact H1].
  destruct H1 as [Hc H1]. split; [exact Hc|]. cbn. specialize (IHp p eq_refl). revert IHp H1. generalize (p_tasks p'). 
  generalize (p_tasks p). induction l as [|x l IH]; intros m IHp H1; cbn; [constructor|].
  inversion IHp; inversion H1; subst. destruct m as [|y m]; [assumption|]. constructor; auto.
Qed.
