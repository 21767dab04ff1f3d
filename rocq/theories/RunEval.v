(** Proofs for C72, second part: the size of a task definition; well-formed definitions evaluate to well-formed definitions of the same size. *)
From Verif Require Export SpecRun AbsLive.
From Verif Require Import SeqTools EvalProofs InvSched InvMsgs PropsSched PropsFan PropsComposite PropsComplete PropsState Live.
From Coq Require Import Permutation.
Open Scope string_scope.
Open Scope list_scope.
Open Scope Z_scope.

(** ** Definitions: size and evaluation *)
Fixpoint weight (t : task) : nat :=
  (5 + match t_parallel t with Some p => sumn (map weight (p_tasks p)) | None => 0 end
     + match t_each t with Some e => weight (e_task e) | None => 0 end
     + match t_subjob t with Some s => sumn (map weight (s_tasks s)) | None => 0 end)%nat.
Lemma weight_eq t : weight t =
  (5 + match t_parallel t with Some p => sumn (map weight (p_tasks p)) | None => 0 end
     + match t_each t with Some e => weight (e_task e) | None => 0 end
     + match t_subjob t with Some s => sumn (map weight (s_tasks s)) | None => 0 end)%nat.
Proof. destruct t; reflexivity. Qed.
Lemma weight_cong t t' :
  match t_parallel t with Some p => sumn (map weight (p_tasks p)) | None => 0%nat end = match t_parallel t' with Some p => sumn (map weight (p_tasks p)) | None => 0%nat end ->
  match t_each t with Some e => weight (e_task e) | None => 0%nat end = match t_each t' with Some e => weight (e_task e) | None => 0%nat end ->
  match t_subjob t with Some s => sumn (map weight (s_tasks s)) | None => 0%nat end = match t_subjob t' with Some s => sumn (map weight (s_tasks s)) | None => 0%nat end ->
  weight t = weight t'.
Proof. intros A B C. rewrite (weight_eq t), (weight_eq t'), A, B, C. reflexivity. Qed.
Lemma sumn_in x l : In x l -> (x <= sumn l)%nat.
Proof. induction l as [|y l IH]; [easy|]. intros [->|H]; cbn; [lia|]. apply IH in H. unfold sumn in *. lia. Qed.

Section Eval.
Variable O : oracle.
Notation wf := (well_formed O). Notation tame := (evaluates O any_string).
Lemma fold_wf l : fold_right (fun c P => wf c /\ P) True l <-> Forall wf l.
Proof. induction l as [|x l IH]; cbn; [split; constructor|]. rewrite IH. split; [intros [? ?]; constructor; auto|intros H; inversion H; auto]. Qed.
Definition wf_each (e : eachT task) : Prop :=
  0 <= e_concurrency e /\ (forall c, exists x l, o_list O c (e_list e) = inl (Some (x :: l))) /\ wf (e_task e).
Definition wf_sub (s : subjobT task) : Prop :=
  s_tasks s <> [] /\ tame (s_name s) /\ values O (s_inputs s) /\ values O (s_secrets s) /\ Forall (hook O) (s_webhooks s) /\
      output_evaluates O (s_output s) /\ Forall wf (s_tasks s).
Lemma wf_eq t : wf t <->
  tame (t_name t) /\ tame (t_var t) /\ tame (t_image t) /\ tame (t_if t) /\
  evaluates O worker_queue (t_queue t) /\ values O (t_env t) /\ Forall tame (t_cmd t) /\
  Forall wf (t_pre t) /\ Forall wf (t_post t) /\
  (forall p, t_parallel t = Some p -> p_tasks p <> [] /\ Forall wf (p_tasks p)) /\
  (forall e, t_each t = Some e -> wf_each e) /\
  (forall s, t_subjob t = Some s -> wf_sub s).
Proof.
  assert (A : forall {X} (P : X -> Prop) (o : option X), match o with Some x => P x | None => True end <-> (forall x, o = Some x -> P x)).
  { intros X P o. destruct o as [x|]; split; auto; [intros H y E; now injection E as <-|discriminate]. }
  destruct t as [f1 f2 f3 f4 f5 f6 f7 f8 f9 f10 f11 f12 f13 f14 f15 f16 f17 f18 f19 f20 f21 f22 pre post f25 f26 f27 f28 f29 f30 f31 f32 f33 f34 pa ea su f38 f39 f40 f41 f42 f43].
  cbn -[fold_right]. rewrite !fold_wf.
  rewrite <- (A _ (fun p => p_tasks p <> [] /\ Forall wf (p_tasks p)) pa), <- (A _ wf_each ea), <- (A _ wf_sub su).
  unfold wf_each, wf_sub. destruct pa as [p|], su as [s|]; rewrite ?fold_wf; tauto.
Qed.

Lemma tame_eval P s c it : evaluates O P s -> exists r, o_tmpl O c it s = inl r /\ evaluates O P r.
Proof. intros [_ H]. apply H. Qed.
Section One.
Variables (c : jobctx) (it : option (string * Z * o_val O)).
Notation f := (o_tmpl O c it).
Lemma map_eval m : values O m -> exists m', eval_map f m = inl m' /\ values O m'.
Proof.
  induction 1 as [|[k v] m H _ (m' & E & V)]; [exists []; split; [reflexivity|constructor]|]. cbn in H. destruct (tame_eval _ _ c it H) as (r & Er & Hr).
  exists ((k, r) :: m'). cbn. rewrite Er, E. split; [reflexivity|]. constructor; [exact Hr|exact V].
Qed.
Lemma strings_eval l : Forall tame l -> exists l', eval_strings f l = inl l' /\ Forall tame l'.
Proof.
  induction 1 as [|v l H _ (l' & E & V)]; [exists []; split; [reflexivity|constructor]|]. destruct (tame_eval _ _ c it H) as (r & Er & Hr).
  exists (r :: l'). cbn. rewrite Er, E. split; [reflexivity|]. constructor; [exact Hr|exact V].
Qed.
Lemma hooks_eval l : Forall (hook O) l -> exists l', eval_webhooks f l = inl l' /\ Forall (hook O) l'.
Proof.
  induction 1 as [|h l (H1 & H2) _ (l' & E & V)]; [exists []; split; [reflexivity|constructor]|]. destruct (tame_eval _ _ c it H1) as (r & Er & Hr).
  destruct (map_eval _ H2) as (m & Em & Hm). exists ((h <| wh_url := r |> <| wh_headers := m |>) :: l'). cbn. rewrite Er, Em, E. split; [reflexivity|].
  constructor; [split; [exact Hr|exact Hm]|exact V].
Qed.
Lemma sub_eval s : wf_sub s -> exists s', eval_subjob f s = inl s' /\ wf_sub s' /\ s_tasks s' = s_tasks s /\ s_detached s' = s_detached s /\ s_id s' = s_id s.
Proof.
  intros (A & B & C & D & E & F & G). destruct (tame_eval _ _ c it B) as (n & En & Hn). destruct (map_eval _ C) as (i & Ei & Hi). destruct (map_eval _ D) as (sc & Es & Hs).
  destruct (hooks_eval _ E) as (wh & Ew & Hw). unfold eval_subjob. rewrite En, Ei, Es, Ew. eexists. split; [reflexivity|]. unfold wf_sub. cbn.
  split; [|split; [|split]]; try reflexivity. split; [exact A|]. split; [exact Hn|]. split; [exact Hi|]. split; [exact Hs|]. split; [exact Hw|]. split; [exact F|exact G].
Qed.
Lemma list_eval l : Forall (fun t => exists d, eval_task f t = inl d /\ wf d /\ weight d = weight t) l ->
  exists l', eval_list (eval_task f) l = inl l' /\ Forall wf l' /\ map weight l' = map weight l.
Proof.
  induction 1 as [|t l (d & E & Hd & Hw) _ (l' & El & Hl & Hm)]; [exists []; split; [reflexivity|split; [constructor|reflexivity]]|].
  exists (d :: l'). cbn. rewrite E, El. split; [reflexivity|]. split; [constructor; assumption|]. now rewrite Hw, Hm.
Qed.
Lemma task_eval t : wf t -> exists d, eval_task f t = inl d /\ wf d /\ weight d = weight t.
Proof.
  induction t as [t (IHpre & IHpost & _ & IHp & _ & _)] using task_nested_ind. intros Hw. pose proof Hw as Hwf. apply wf_eq in Hw as (A1 & A2 & A3 & A4 & A5 & A6 & A7 & A8 & A9 & A10 & A11 & A12).
  assert (L : forall l, Forall (fun t => wf t -> exists d, eval_task f t = inl d /\ wf d /\ weight d = weight t) l -> Forall wf l ->
    exists l', eval_list (eval_task f) l = inl l' /\ Forall wf l' /\ map weight l' = map weight l).
  { intros l H1 H2. apply list_eval. rewrite Forall_forall in *. intros x Hx. auto. }
  destruct (tame_eval _ _ c it A1) as (nm & E1 & H1). destruct (tame_eval _ _ c it A2) as (vr & E2 & H2). destruct (tame_eval _ _ c it A3) as (im & E3 & H3).
  destruct (tame_eval _ _ c it A4) as (fi & E4 & H4). destruct (tame_eval _ _ c it A5) as (qu & E5 & H5). destruct (map_eval _ A6) as (en & E6 & H6).
  destruct (strings_eval _ A7) as (cm & E7 & H7). destruct (L _ IHpre A8) as (pr & E8 & H8 & _). destruct (L _ IHpost A9) as (po & E9 & H9 & _).
  assert (X10 : exists pa, (match t_parallel t with
         | None => inl None
         | Some p => match eval_list (eval_task f) (p_tasks p) with inr e => inr e | inl ts => inl (Some (mkParallel ts (p_completions p))) end
         end) = inl pa /\ (forall p, pa = Some p -> p_tasks p <> [] /\ Forall wf (p_tasks p)) /\
         match pa with Some p => sumn (map weight (p_tasks p)) | None => 0%nat end = match t_parallel t with Some p => sumn (map weight (p_tasks p)) | None => 0%nat end).
  { destruct (t_parallel t) as [p|]; [|exists None; split; [reflexivity|]; split; [discriminate|reflexivity]].
    destruct (A10 p eq_refl) as (N & W). destruct (L _ (IHp p eq_refl) W) as (ts & Et & Ht & Hm). rewrite Et. eexists. split; [reflexivity|]. split.
    - intros q E. injection E as <-. cbn. split; [|exact Ht]. intros ->. destruct (p_tasks p); [contradiction N; reflexivity|discriminate Hm].
    - cbn. now rewrite Hm. }
  destruct X10 as (pa & E10 & H10 & W10).
  assert (X11 : exists sj, (match t_subjob t with None => inl None | Some s => match eval_subjob f s with inr e => inr e | inl s' => inl (Some s') end end) = inl sj /\
     (forall s, sj = Some s -> wf_sub s) /\
     match sj with Some s => sumn (map weight (s_tasks s)) | None => 0%nat end = match t_subjob t with Some s => sumn (map weight (s_tasks s)) | None => 0%nat end).
  { destruct (t_subjob t) as [s|]; [|exists None; split; [reflexivity|]; split; [discriminate|reflexivity]].
    destruct (sub_eval s (A12 s eq_refl)) as (s' & Es & Hs & Et & _). rewrite Es. eexists. split; [reflexivity|]. split; [intros x E; injection E as <-; exact Hs|now rewrite Et]. }
  destruct X11 as (sj & E11 & H11 & W11).
  exists (t <| t_name := nm |> <| t_var := vr |> <| t_image := im |> <| t_queue := qu |>
           <| t_env := en |> <| t_if := fi |> <| t_pre := pr |> <| t_post := po |>
           <| t_parallel := pa |> <| t_cmd := cm |> <| t_subjob := sj |>).
  split; [|split].
  - destruct t; cbn in *. rewrite E1, E2, E3, E5, E6, E4, E8, E9, E10, E7, E11. reflexivity.
  - apply wf_eq. cbn. refine (conj H1 (conj H2 (conj H3 (conj H4 (conj H5 (conj H6 (conj H7 (conj H8 (conj H9 (conj H10 (conj _ H11))))))))))). exact A11.
  - rewrite (weight_eq t), weight_eq. cbn [t_parallel t_each t_subjob set]. cbn. rewrite W10, W11. reflexivity.
Qed.
End One.

Lemma clone_wf t : wf t -> wf (clone_task t) /\ weight (clone_task t) = weight t.
Proof.
  induction t as [t (IHpre & IHpost & _ & IHp & IHe & IHs)] using task_nested_ind. intros Hw.
  assert (L : forall l, Forall (fun t => wf t -> wf (clone_task t) /\ weight (clone_task t) = weight t) l -> Forall wf l ->
    Forall wf (map clone_task l) /\ map weight (map clone_task l) = map weight l).
  { intros l H1 H2. induction l as [|x l IH]; [split; [constructor|reflexivity]|]. inversion H1; inversion H2; subst. destruct IH as [I1 I2]; auto.
    destruct H3 as [J1 J2]; auto. split; [constructor; auto|cbn; congruence]. }
  apply wf_eq in Hw as (A1 & A2 & A3 & A4 & A5 & A6 & A7 & A8 & A9 & A10 & A11 & A12). split.
  - apply wf_eq. destruct t; cbn in *. split; [exact A1|]. split; [exact A2|]. split; [exact A3|]. split; [exact A4|]. split; [exact A5|]. split; [exact A6|]. split; [exact A7|].
    split; [apply L; assumption|]. split; [apply L; assumption|]. split; [|split].
    + intros p E. destruct t_parallel as [p0|]; [|discriminate]. injection E as <-. cbn. destruct (A10 p0 eq_refl) as (N & W). split; [|apply L; auto].
      destruct (p_tasks p0); [contradiction N; reflexivity|discriminate].
    + intros e E. destruct t_each as [e0|]; [|discriminate]. injection E as <-. destruct (A11 e0 eq_refl) as (B1 & B2 & B3). split; [exact B1|]. split; [exact B2|]. now apply IHe.
    + intros s E. destruct t_subjob as [s0|]; [|discriminate]. injection E as <-. destruct (A12 s0 eq_refl) as (B1 & B2 & B3 & B4 & B5 & B6 & B7).
      split; [cbn; destruct (s_tasks s0); [contradiction B1; reflexivity|discriminate]|]. split; [exact B2|]. split; [exact B3|]. split; [exact B4|].
      split; [cbn; clear - B5; induction B5 as [|h l H _ IH]; cbn; constructor; [destruct h; exact H|exact IH]|]. split; [exact B6|]. apply L; auto.
  - apply weight_cong; destruct t; cbn in *.
    + destruct t_parallel as [p0|]; [|reflexivity]. cbn. destruct (A10 p0 eq_refl) as (N & W). now rewrite (proj2 (L _ (IHp p0 eq_refl) W)).
    + destruct t_each as [e0|]; [|reflexivity]. cbn. destruct (A11 e0 eq_refl) as (B1 & B2 & B3). now apply IHe.
    + destruct t_subjob as [s0|]; [|reflexivity]. cbn. destruct (A12 s0 eq_refl) as (B1 & B2 & B3 & B4 & B5 & B6 & B7). now rewrite (proj2 (L _ (IHs s0 eq_refl) B7)).
Qed.
Lemma write_wf t : forall d, wf t -> wf d -> wf (write_cmds t d) /\ weight (write_cmds t d) = weight t.
Proof.
  induction t as [t (IHpre & IHpost & _ & IHp & _ & _)] using task_nested_ind. intros d Hw Hd.
  assert (L : forall l, Forall (fun t => forall d, wf t -> wf d -> wf (write_cmds t d) /\ weight (write_cmds t d) = weight t) l -> Forall wf l -> forall m, Forall wf m ->
    Forall wf (zip_tasks write_cmds l m) /\ map weight (zip_tasks write_cmds l m) = map weight l).
  { intros l H1 H2. induction l as [|x l IH]; intros m Hm; [split; [constructor|reflexivity]|]. inversion H1; inversion H2; subst. cbn. inversion Hm as [|y m' Hy Hm']; subst; [split; [assumption|reflexivity]|].
    destruct (IH H4 H8 m' Hm') as [I1 I2]. destruct (H3 y H7 Hy) as [J1 J2]. split; [constructor; auto|cbn; congruence]. }
  apply wf_eq in Hw as (A1 & A2 & A3 & A4 & A5 & A6 & A7 & A8 & A9 & A10 & A11 & A12). apply wf_eq in Hd as (_ & _ & _ & _ & _ & _ & D7 & D8 & D9 & D10 & _ & _).
  split.
  - apply wf_eq. destruct t; cbn in *. split; [exact A1|]. split; [exact A2|]. split; [exact A3|]. split; [exact A4|]. split; [exact A5|]. split; [exact A6|]. split; [exact D7|].
    split; [apply L; assumption|]. split; [apply L; assumption|]. split; [|split; [exact A11|exact A12]].
    intros p E. destruct t_parallel as [p0|]; [|discriminate]. destruct (A10 p0 eq_refl) as (N & W). destruct (Types.t_parallel d) as [p'|] eqn:Ed; [|injection E as <-; auto].
    injection E as <-. cbn. destruct (D10 p' eq_refl) as (_ & W'). destruct (L _ (IHp p0 eq_refl) W _ W') as [L1 L2]. split; [|exact L1].
    intros Z. rewrite Z in L2. destruct (p_tasks p0); [contradiction N; reflexivity|discriminate].
  - apply weight_cong; destruct t; cbn in *; [|reflexivity|reflexivity]. destruct t_parallel as [p0|]; [|reflexivity]. destruct (A10 p0 eq_refl) as (N & W). destruct (Types.t_parallel d) as [p'|] eqn:Ed; [|reflexivity].
    destruct (D10 p' eq_refl) as (_ & W'). cbn. now rewrite (proj2 (L _ (IHp p0 eq_refl) W _ W')).
Qed.
(** an each task's children *)
Lemma instances_exist c var l : forall k def, wf def -> pristine def -> exists ds, instances O c var k def l ds /\ Forall (fun d => wf d /\ pristine d /\ weight d = weight def) ds.
Proof.
  induction l as [|x l IH]; intros k def Hw Hp; [exists []; split; constructor|].
  destruct (clone_wf def Hw) as (Hc & Wc). destruct (task_eval c (Some (var, Z.of_nat k, x)) (clone_task def) Hc) as (d & Ed & Hd & Wd).
  assert (Pd : pristine d) by (eapply eval_pristine; [apply clone_pristine; exact Hp|exact Ed]).
  destruct (write_wf def d Hw Hd) as (Hn & Wn). destruct (IH (S k) (write_cmds def d) Hn (write_cmds_pristine _ _ Hp)) as (ds & Hi & HF).
  exists (d :: ds). split; [econstructor; [exact Ed|exact Hi]|]. constructor; [split; [exact Hd|split; [exact Pd|congruence]]|].
  eapply Forall_impl; [|exact HF]. intros a (X & Y & Z). split; [exact X|split; [exact Y|congruence]].
Qed.
End Eval.
