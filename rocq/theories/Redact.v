(** C43: redaction of what the API returns.
    internal/redact/redact.go; middleware/job/redact.go, middleware/task/redact.go, middleware/log/redact.go;
    engine/coordinator.go:50-62. *)
From Coq Require Import Ascii.
From Verif Require Import Types.
Open Scope string_scope.
Open Scope list_scope.
Open Scope nat_scope.

(* ------------------------------------------------------------------ *)
(** * Specification *)
(** [s] is a substring of [v] *)
Definition occurs (s v : string) : Prop := exists a b, v = (a ++ s ++ b)%string.
Definition marker : string := "[REDACTED]".
(** The secrets whose removal is certain: not empty, no bracket, not part of the word REDACTED *)
Definition bracket_free (s : string) : Prop := ~ occurs "[" s /\ ~ occurs "]" s.
Definition plain_secret (s : string) : Prop := s <> "" /\ bracket_free s /\ ~ occurs s "REDACTED".

(** [shown_task t k v]: [v] is a value found in one of the covered fields of the task, under the key [k] *)
Inductive shown_task : task -> string -> string -> Prop :=
| sh_env : forall t k v, In (k, v) (t_env t) -> shown_task t k v
| sh_mount : forall t m k v, In m (t_mounts t) -> In (k, v) (m_opts m) -> shown_task t k v
| sh_pre : forall t p k v, In p (t_pre t) -> shown_task p k v -> shown_task t k v
| sh_post : forall t p k v, In p (t_post t) -> shown_task p k v -> shown_task t k v
| sh_parallel : forall t pl p k v, t_parallel t = Some pl -> In p (p_tasks pl) -> shown_task p k v -> shown_task t k v
| sh_registry : forall t r, t_registry t = Some r -> shown_task t "" (rg_password r)
| sh_subsecret : forall t s k v, t_subjob t = Some s -> In (k, v) (s_secrets s) -> shown_task t k v
| sh_subhook : forall t s w k v, t_subjob t = Some s -> In w (s_webhooks s) -> In (k, v) (wh_headers w) -> shown_task t k v.
Inductive shown_job : job -> string -> string -> Prop :=
| sh_inputs : forall j k v, In (k, v) (j_inputs j) -> shown_job j k v
| sh_hook : forall j w k v, In w (j_webhooks j) -> In (k, v) (wh_headers w) -> shown_job j k v
| sh_ctx_inputs : forall j k v, In (k, v) (c_inputs (j_context j)) -> shown_job j k v
| sh_ctx_secrets : forall j k v, In (k, v) (c_secrets (j_context j)) -> shown_job j k v
| sh_ctx_tasks : forall j k v, In (k, v) (c_tasks (j_context j)) -> shown_job j k v
| sh_task : forall j t k v, In t (j_tasks j) -> shown_task t k v -> shown_job j k v
| sh_exec : forall j t k v, In t (j_execution j) -> shown_task t k v -> shown_job j k v
| sh_secrets : forall j k v, In (k, v) (j_secrets j) -> shown_job j k v.

(* ------------------------------------------------------------------ *)
(** * Model *)
Fixpoint has_prefix {A} (eqb : A -> A -> bool) (p s : list A) : bool :=
  match p, s with [], _ => true | a :: p, b :: s => eqb a b && has_prefix eqb p s | _, _ => false end.
(** strings.ReplaceAll(l, old, new), old not empty: occurrences from the left, not overlapping.  [skip]: characters of
    the last occurrence still to be passed over. *)
Fixpoint replace_from (old new l : list ascii) (skip : nat) : list ascii :=
  match l with
  | [] => []
  | c :: l' => match skip with
    | S k => replace_from old new l' k
    | O => if has_prefix Ascii.eqb old l then new ++ replace_from old new l' (length old - 1)
           else c :: replace_from old new l' 0
    end
  end.
(** the same with an empty [old]: [new] before each rune and at the end; [ws]: the widths of the runes in bytes *)
Fixpoint interleave {A} (new : list A) (ws : list nat) (l : list A) : list A :=
  match ws with [] => new | w :: ws => new ++ firstn w l ++ interleave new ws (skipn w l) end.

Section Redacter.
(** How a byte string divides into runes (utf8.DecodeRuneInString).  Only used for empty secrets; nothing is assumed *)
Variable rune_widths : list ascii -> list nat.
Definition replace_all_l (l old new : list ascii) : list ascii :=
  match old with [] => interleave new (rune_widths l) l | _ => replace_from old new l 0 end.
Definition replace_all (v old new : string) : string :=
  string_of_list_ascii (replace_all_l (list_ascii_of_string v) (list_ascii_of_string old) (list_ascii_of_string new)).

(** redact.go:61-67,144-146: one secret after the other.  Go visits the map in an unspecified order: the theorems hold
    for every list [secrets], so for every order. *)
Definition mask (secrets : smap) (v : string) : string :=
  fold_left (fun v s => replace_all v (snd s) marker) secrets v.

(** redact.go:29 [Matcher] *)
Variable matchers : list (string -> bool).
Definition looks_secret (k : string) : bool := existsb (fun m => m k) matchers.
(** redact.go:135-151 [redactVars] *)
Definition redact_vars (m : smap) (secrets : smap) : smap :=
  map (fun kv : string * string => (fst kv, mask secrets (if looks_secret (fst kv) then marker else snd kv))) m.

(** redact.go:69-107 [doRedactTask].  Go changes the task in place; here the changed task is returned. *)
Definition redact_mount (secrets : smap) (m : mount) : mount :=
  mkMount (m_id m) (m_type m) (m_source m) (m_target m) (redact_vars (m_opts m) secrets).
Definition redact_webhook (secrets : smap) (w : webhook) : webhook :=
  mkWebhook (wh_url w) (redact_vars (wh_headers w) secrets) (wh_event w) (wh_if w).
Definition blot (m : smap) : smap := map (fun kv : string * string => (fst kv, marker)) m.
Fixpoint redact_task (secrets : smap) (t : task) : task :=
  mkTask
    (t_id t) (t_job t) (t_parent t) (t_position t) (t_name t) (t_description t) (t_state t)
    (t_created t) (t_scheduled t) (t_started t) (t_completed t) (t_failed t)
    (t_cmd t) (t_entrypoint t) (t_run t) (t_image t)
    (option_map (fun r => mkRegistry (rg_username r) marker) (t_registry t))
    (redact_vars (t_env t) secrets) (t_files t) (t_queue t) (t_redelivered t) (t_error t)
    (map (redact_task secrets) (t_pre t)) (map (redact_task secrets) (t_post t)) (t_sidecars t)
    (map (redact_mount secrets) (t_mounts t)) (t_networks t) (t_node t) (t_retry t) (t_limits t)
    (t_timeout t) (t_result t) (t_var t) (t_if t)
    (match t_parallel t with None => None
     | Some p => Some (mkParallel (map (redact_task secrets) (p_tasks p)) (p_completions p)) end)
    (t_each t)
    (match t_subjob t with None => None
     | Some s => Some (mkSubJob (s_id s) (s_name s) (s_description s) (s_tasks s) (s_inputs s) (blot (s_secrets s))
                         (s_autodelete s) (s_output s) (s_detached s) (map (redact_webhook secrets) (s_webhooks s))) end)
    (t_gpus t) (t_tags t) (t_workdir t) (t_priority t) (t_progress t) (t_probe t).

(** redact.go:109-133 [RedactJob] *)
Definition redact_job (j : job) : job :=
  let sec := j_secrets j in
  mkJob (j_id j) (j_parent j) (j_name j) (j_description j) (j_tags j) (j_state j) (j_created j) (j_createdby j)
    (j_started j) (j_completed j) (j_failed j)
    (map (redact_task sec) (j_tasks j)) (map (redact_task sec) (j_execution j)) (j_position j)
    (redact_vars (j_inputs j) sec)
    (mkCtx (c_job (j_context j)) (redact_vars (c_inputs (j_context j)) sec) (redact_vars (c_secrets (j_context j)) sec)
           (redact_vars (c_tasks (j_context j)) sec))
    (j_taskcount j) (j_output j) (j_result j) (j_error j) (j_defaults j)
    (map (redact_webhook sec) (j_webhooks j)) (j_permissions j) (j_autodelete j) (j_deleteat j)
    (blot sec) (j_progress j) (j_schedule j).

(** redact.go:52-59 [RedactTask], as called by middleware/task/redact.go for GET /tasks/{id}; [job]: what GetJobByID
    gives, [None] an error *)
Definition read_task (job : option job) (t : task) : task :=
  match job with None => t | Some j => redact_task (j_secrets j) t end.
(** middleware/log/redact.go: the contents of the parts, or an error *)
Definition read_log (job : option job) (parts : list string) : option (list string) :=
  match parts with [] => Some [] | _ =>
    match job with None => None | Some j => Some (map (mask (j_secrets j)) parts) end end.

(* ------------------------------------------------------------------ *)
(** * Proofs *)
Definition inf {A} (b x : list A) : Prop := exists a c, x = a ++ b ++ c.
Definition pre {A} (b x : list A) : Prop := exists c, x = b ++ c.

(** tagged text: [true] for characters that come from a marker *)
Definition tagged := list (bool * ascii).
Definition erase (x : tagged) : list ascii := map snd x.
Definition ML : tagged := map (fun c => (true, c)) (list_ascii_of_string marker).
Definition INNER : tagged := map (fun c => (true, c)) (list_ascii_of_string "REDACTED").
Definition is_mb (p : bool * ascii) : bool := fst p && (Ascii.eqb (snd p) "["%char || Ascii.eqb (snd p) "]"%char).
Definition nomb (x : tagged) : Prop := Forall (fun p => is_mb p = false) x.

Fixpoint treplace_from (old : list ascii) (x : tagged) (skip : nat) : tagged :=
  match x with
  | [] => []
  | c :: x' => match skip with
    | S k => treplace_from old x' k
    | O => if has_prefix Ascii.eqb old (erase x) then ML ++ treplace_from old x' (length old - 1)
           else c :: treplace_from old x' 0
    end
  end.
Definition treplace (x : tagged) (old : list ascii) : tagged :=
  match old with [] => interleave ML (rune_widths (erase x)) x | _ => treplace_from old x 0 end.

Lemma erase_ML : erase ML = list_ascii_of_string marker.
Proof. reflexivity. Qed.
Lemma erase_treplace_from : forall old x k,
  erase (treplace_from old x k) = replace_from old (list_ascii_of_string marker) (erase x) k.
Proof.
  intros old x. induction x as [|c x IH]; intros [|k]; try reflexivity.
  - change (erase (c :: x)) with (snd c :: erase x). cbn [treplace_from replace_from].
    change (snd c :: erase x) with (erase (c :: x)). destruct (has_prefix Ascii.eqb old (erase (c :: x))).
    + transitivity (erase ML ++ erase (treplace_from old x (length old - 1))); [apply map_app|]. now rewrite erase_ML, IH.
    + change (snd c :: erase (treplace_from old x 0) = snd c :: replace_from old (list_ascii_of_string marker) (erase x) 0). now rewrite IH.
  - apply (IH k).
Qed.
Lemma erase_interleave : forall ws x, erase (interleave ML ws x) = interleave (list_ascii_of_string marker) ws (erase x).
Proof.
  induction ws as [|w ws IH]; intros x; [reflexivity|]. cbn [interleave]. unfold erase in *.
  now rewrite !map_app, IH, firstn_map, skipn_map.
Qed.
Lemma erase_treplace : forall x old, erase (treplace x old) = replace_all_l (erase x) old (list_ascii_of_string marker).
Proof. intros x [|c old]; [apply erase_interleave|apply erase_treplace_from]. Qed.

Lemma inf_refl : forall A (x : list A), inf x x.
Proof. intros A x. exists [], []. now rewrite app_nil_r. Qed.
Lemma inf_trans : forall A (x y z : list A), inf x y -> inf y z -> inf x z.
Proof. intros A x y z (a & c & ->) (a' & c' & ->). exists (a' ++ a), (c ++ c'). now rewrite !app_assoc. Qed.
Lemma pre_inf : forall A (x y : list A), pre x y -> inf x y.
Proof. intros A x y (c & ->). now exists [], c. Qed.
Lemma inf_cons : forall A (x : A) b y, inf b (x :: y) -> pre b (x :: y) \/ inf b y.
Proof. intros A x b y ([|a0 a] & c & H); [left; now exists c|right]. injection H as -> ->. now exists a, c. Qed.
Lemma inf_app : forall A (b x y : list A), inf b (x ++ y) ->
  inf b x \/ inf b y \/ exists b1 b2, b1 <> [] /\ b2 <> [] /\ b = b1 ++ b2 /\ (exists a, x = a ++ b1) /\ pre b2 y.
Proof.
  intros A b x. induction x as [|u x IH]; intros y H; [auto|].
  cbn in H. destruct (inf_cons _ _ _ _ H) as [(c & P)|I].
  - change (u :: x ++ y) with ((u :: x) ++ y) in P.
    assert (D : (exists l, u :: x = b ++ l) \/ (exists b2, b2 <> [] /\ b = (u :: x) ++ b2 /\ pre b2 y)).
    { revert P. generalize (u :: x). clear. intros x. revert b. induction x as [|v x IH]; intros b P.
      - destruct b as [|w b]; [left; now exists []|]. right. exists (w :: b). repeat split; [discriminate|now exists c].
      - destruct b as [|w b]; [left; now exists (v :: x)|]. cbn in P. injection P as -> P.
        destruct (IH _ P) as [(l & ->)|(b2 & N & -> & Q)]; [left; now exists l|right; exists b2; auto]. }
    destruct D as [(l & E)|(b2 & N & -> & Q)]; [left; exists [], l; exact E|].
    right. right. exists (u :: x), b2. repeat split; auto; [discriminate|now exists []].
  - destruct (IH _ I) as [(a & c & ->)|[I'|(b1 & b2 & N1 & N2 & E & (a & ->) & Q)]].
    + left. now exists (u :: a), c.
    + auto.
    + right. right. exists b1, b2. repeat split; auto. now exists (u :: a).
Qed.
Lemma nomb_app : forall x y, nomb (x ++ y) -> nomb x /\ nomb y.
Proof. intros x y H. now apply Forall_app in H. Qed.

Lemma ML_shape : ML = (true, "["%char) :: INNER ++ [(true, "]"%char)].
Proof. reflexivity. Qed.
Lemma nomb_suffix_ML : forall a b, ML = a ++ b -> nomb b -> b = [].
Proof.
  intros a b H N. destruct b as [|x b] using rev_ind; [reflexivity|]. exfalso.
  rewrite ML_shape, app_assoc in H. change ((true, "["%char) :: INNER ++ [(true, "]"%char)]) with (((true, "["%char) :: INNER) ++ [(true, "]"%char)]) in H.
  apply app_inj_tail in H as [_ <-]. apply nomb_app in N as [_ N]. inversion N; discriminate.
Qed.
Lemma nomb_inf_ML : forall b, inf b ML -> nomb b -> inf b INNER.
Proof.
  intros b H N. destruct b as [|x b]; [exists [], INNER; reflexivity|].
  rewrite ML_shape in H. destruct (inf_cons _ _ _ _ H) as [(c & P)|I].
  - exfalso. cbn in P. injection P as <- _. inversion N; discriminate.
  - destruct (inf_app _ _ _ _ I) as [I'|[I'|(b1 & b2 & N1 & N2 & E & _ & (c & Q))]]; [exact I'| |].
    + exfalso. destruct (inf_cons _ _ _ _ I') as [(c & P)|(a & c & P)]; [|destruct a; discriminate].
      cbn in P. injection P as <- _. inversion N; discriminate.
    + exfalso. rewrite E in N. apply nomb_app in N as [_ N]. destruct b2 as [|y b2]; [congruence|]. injection Q as <- _. inversion N; discriminate.
Qed.
(** an infix without marker brackets of a marker followed by something *)
Lemma inf_after_ML : forall b y, inf b (ML ++ y) -> nomb b -> inf b INNER \/ inf b y.
Proof.
  intros b y H N. destruct (inf_app _ _ _ _ H) as [I|[I|(b1 & b2 & N1 & N2 & E & (a & Ea) & Q)]]; [left; now apply nomb_inf_ML|auto|].
  exfalso. rewrite E in N. apply nomb_app in N as [N _]. apply N1. eapply nomb_suffix_ML; eauto.
Qed.
Lemma pre_before_ML : forall b y z, pre b (y ++ ML ++ z) -> nomb b -> pre b y.
Proof.
  intros b y. revert b. induction y as [|u y IH]; intros b z (c & H) N.
  - destruct b as [|v b]; [exists []; reflexivity|]. exfalso. rewrite ML_shape in H. cbn in H. injection H as <- _. inversion N; discriminate.
  - destruct b as [|v b]; [now exists (u :: y)|]. cbn in H. injection H as <- H. inversion N; subst.
    destruct (IH b z) as (c' & ->); [now exists c|assumption|]. now exists c'.
Qed.

Lemma has_prefix_spec : forall (s l : list ascii), has_prefix Ascii.eqb s l = true <-> pre s l.
Proof.
  induction s as [|a s IH]; intros l; cbn; [split; [intros _; now exists l|reflexivity]|].
  destruct l as [|b l]; [split; [discriminate|intros (c & H); discriminate]|].
  rewrite andb_true_iff, IH, Ascii.eqb_eq. split.
  - intros [-> (c & ->)]. now exists c.
  - intros (c & H). injection H as -> ->. split; [reflexivity|now exists c].
Qed.

Lemma treplace_pre : forall old x b, pre b (treplace_from old x 0) -> nomb b -> pre b x.
Proof.
  intros old x. induction x as [|u x IH]; intros b (c & H) N.
  - cbn in H. destruct b; [now exists []|discriminate].
  - cbn [treplace_from] in H. destruct (has_prefix _ _ _).
    + destruct b as [|v b]; [now exists (u :: x)|]. exfalso. rewrite ML_shape in H. cbn in H. injection H as <- _. inversion N; discriminate.
    + destruct b as [|v b]; [now exists (u :: x)|]. cbn in H. injection H as <- H. inversion N; subst.
      destruct (IH b) as (c' & ->); [now exists c|assumption|]. now exists c'.
Qed.
(** what is kept of the text: pieces of it in which no occurrence of [old] starts *)
Lemma treplace_inf : forall old x k b, inf b (treplace_from old x k) -> nomb b -> b <> [] ->
  inf b INNER \/ exists a y, x = a ++ y /\ pre b y /\ has_prefix Ascii.eqb old (erase y) = false.
Proof.
  intros old x. induction x as [|u x IH]; intros k b H N Hb.
  - destruct k; cbn in H; destruct H as ([|? ?] & c & H); try discriminate; destruct b; [congruence|discriminate|congruence|discriminate].
  - assert (L : forall k', inf b (treplace_from old x k') -> inf b INNER \/ exists a y, u :: x = a ++ y /\ pre b y /\ has_prefix Ascii.eqb old (erase y) = false).
    { intros k' I. destruct (IH k' b I N Hb) as [I'|(a & y & -> & P & Q)]; [auto|]. right. now exists (u :: a), y. }
    destruct k as [|k]; cbn [treplace_from] in H; [|now apply (L k)].
    destruct (has_prefix Ascii.eqb old (erase (u :: x))) eqn:E.
    + destruct (inf_after_ML _ _ H N) as [I|I]; [auto|now apply (L (length old - 1))].
    + destruct (inf_cons _ _ _ _ H) as [(c & P)|I]; [|now apply (L 0)].
      destruct b as [|v b]; [congruence|]. cbn in P. injection P as <- P. inversion N; subst.
      destruct (treplace_pre old x b) as (c' & E'); [now exists c|assumption|].
      right. exists [], (u :: x). split; [reflexivity|]. split; [|exact E]. exists c'. cbn. now rewrite E'.
Qed.
Lemma interleave_inf : forall ws x b, inf b (interleave ML ws x) -> nomb b -> inf b INNER \/ inf b x.
Proof.
  induction ws as [|w ws IH]; intros x b H N; cbn [interleave] in H.
  - left. now apply nomb_inf_ML.
  - destruct (inf_after_ML _ _ H N) as [I|I]; [auto|].
    assert (HH : exists z, interleave ML ws (skipn w x) = ML ++ z) by (destruct ws; cbn [interleave]; eauto; exists []; now rewrite app_nil_r).
    destruct (inf_app _ _ _ _ I) as [I'|[I'|(b1 & b2 & N1 & N2 & E & _ & Q)]].
    + right. apply (inf_trans _ _ _ _ I'). exists [], (skipn w x). symmetry. apply firstn_skipn.
    + destruct (IH _ _ I' N) as [I2|I2]; [auto|]. right. apply (inf_trans _ _ _ _ I2).
      exists (firstn w x), []. now rewrite app_nil_r, firstn_skipn.
    + exfalso. destruct HH as (z & Hz). rewrite Hz in Q. rewrite E in N. apply nomb_app in N as [_ N].
      destruct (pre_before_ML b2 [] z Q N) as (c & Hc). destruct b2; [congruence|discriminate].
Qed.

(** the invariant: after masking the secrets [done], an infix without marker brackets is part of the word in a marker,
    or of the original text, containing none of them *)
Definition no_inf (s : list ascii) (b : tagged) : Prop := s <> [] -> ~ inf s (erase b).
Definition okText (done : list (list ascii)) (x : tagged) : Prop :=
  forall b, inf b x -> nomb b -> inf b INNER \/ (Forall (fun p => fst p = false) b /\ Forall (fun s => no_inf s b) done).

Lemma okText_start : forall v, okText [] (map (fun c => (false, c)) v).
Proof.
  intros v b (a & c & H) _. right. split; [|constructor].
  apply (f_equal (map fst)) in H. rewrite map_map in H. cbn in H. rewrite !map_app in H.
  apply Forall_forall. intros p Hp. assert (In (fst p) (map (fun _ => false) v)) as I.
  { rewrite H. apply in_or_app. right. apply in_or_app. left. now apply in_map. }
  apply in_map_iff in I as (? & <- & _). reflexivity.
Qed.

Lemma inf_erase : forall s b, inf s (erase b) -> exists b', inf b' b /\ erase b' = s.
Proof.
  intros s b (a & c & H). unfold erase in H. 
  assert (S : forall (l1 l2 : list ascii) (b : tagged), map snd b = l1 ++ l2 -> exists b1 b2, b = b1 ++ b2 /\ map snd b1 = l1 /\ map snd b2 = l2).
  { induction l1 as [|u l1 IH]; intros l2 x Hx; [now exists [], x|]. destruct x as [|p x]; [discriminate|]. cbn in Hx. injection Hx as <- Hx.
    destruct (IH _ _ Hx) as (b1 & b2 & -> & <- & <-). now exists (p :: b1), b2. }
  destruct (S _ _ _ H) as (b1 & b2 & -> & _ & H2). destruct (S _ _ _ H2) as (b3 & b4 & -> & H3 & _).
  exists b3. split; [now exists b1, b4|exact H3].
Qed.
Lemma nomb_inf : forall b' b, inf b' b -> nomb b -> nomb b'.
Proof. intros b' b (a & c & ->) N. apply nomb_app in N as [_ N]. now apply nomb_app in N as [N _]. Qed.
Lemma pre_erase : forall b y, pre b y -> pre (erase b) (erase y).
Proof. intros b y (c & ->). exists (erase c). unfold erase. apply map_app. Qed.

Lemma okText_step : forall done x s, okText done x -> okText (s :: done) (treplace x s).
Proof.
  intros done x s OK b I N. destruct b as [|p b]; [left; exists [], INNER; reflexivity|].
  destruct s as [|u s]; cbn [treplace] in I.
  - destruct (interleave_inf _ _ _ I N) as [J|J]; [auto|]. destruct (OK _ J N) as [K|[K1 K2]]; [auto|right]. split; [exact K1|]. constructor; [now intros []|exact K2].
  - assert (D : inf (p :: b) INNER \/ inf (p :: b) x).
    { destruct (treplace_inf _ _ _ _ I N ltac:(discriminate)) as [J|(a & y & -> & (c & ->) & _)]; [auto|]. right. now exists a, c. }
    destruct D as [J|J]; [auto|]. destruct (OK _ J N) as [K|[K1 K2]]; [auto|right]. split; [exact K1|]. constructor; [|exact K2].
    intros _ L. destruct (inf_erase _ _ L) as (b' & Ib & Eb).
    assert (N' := nomb_inf _ _ Ib N). assert (I' := inf_trans _ _ _ _ Ib I).
    assert (Hb : b' <> []) by (intros ->; discriminate).
    destruct (treplace_inf _ _ _ _ I' N' Hb) as [J'|(a & y & -> & P & Q)].
    + assert (F : Forall (fun p => fst p = false) b').
      { destruct Ib as (a & c & E). rewrite E in K1. apply Forall_app in K1 as [_ K1]. now apply Forall_app in K1 as [K1 _]. }
      destruct b' as [|q b']; [congruence|]. inversion F; subst. destruct J' as (a & c & E).
      assert (In q INNER) as Iq by (rewrite E; apply in_or_app; right; left; reflexivity).
      unfold INNER in Iq. apply in_map_iff in Iq as (ch & <- & _). discriminate.
    + apply pre_erase in P. rewrite Eb in P. apply has_prefix_spec in P. congruence.
Qed.

Lemma LS : forall l, list_ascii_of_string (string_of_list_ascii l) = l.
Proof. exact list_ascii_of_string_of_list_ascii. Qed.
Lemma SL : forall s, string_of_list_ascii (list_ascii_of_string s) = s.
Proof. exact string_of_list_ascii_of_string. Qed.
Lemma LA_app : forall a b, list_ascii_of_string (a ++ b)%string = list_ascii_of_string a ++ list_ascii_of_string b.
Proof. induction a as [|c a IH]; intros b; cbn; [reflexivity|]. now rewrite IH. Qed.
Lemma SA_app : forall a b, string_of_list_ascii (a ++ b) = (string_of_list_ascii a ++ string_of_list_ascii b)%string.
Proof. induction a as [|c a IH]; intros b; cbn; [reflexivity|]. now rewrite IH. Qed.
Lemma occurs_inf : forall s v, occurs s v <-> inf (list_ascii_of_string s) (list_ascii_of_string v).
Proof.
  intros s v. split.
  - intros (a & b & ->). exists (list_ascii_of_string a), (list_ascii_of_string b). now rewrite !LA_app.
  - intros (a & b & H). exists (string_of_list_ascii a), (string_of_list_ascii b). apply (f_equal string_of_list_ascii) in H.
    now rewrite !SA_app, !SL in H.
Qed.

Lemma mask_tagged : forall secrets v done x, okText done x -> erase x = list_ascii_of_string v ->
  exists x', okText (rev (map (fun s => list_ascii_of_string (snd s)) secrets) ++ done) x' /\ erase x' = list_ascii_of_string (mask secrets v).
Proof.
  induction secrets as [|s secrets IH]; intros v done x OK E; [now exists x|].
  cbn [mask fold_left]. fold (mask secrets (replace_all v (snd s) marker)).
  destruct (IH (replace_all v (snd s) marker) (list_ascii_of_string (snd s) :: done) (treplace x (list_ascii_of_string (snd s)))) as (x' & A & B).
  - now apply okText_step.
  - rewrite erase_treplace, E. unfold replace_all. now rewrite LS.
  - exists x'. split; [|exact B]. cbn [map rev]. now rewrite <- app_assoc.
Qed.

Lemma inf_char : forall (c : ascii) l, In c l -> inf [c] l.
Proof. intros c l H. apply in_split in H as (a & b & ->). now exists a, b. Qed.

(** ** No occurrence of a secret remains in a masked text *)
Theorem C43_no_secret_remains : forall secrets v k s,
  In (k, s) secrets -> plain_secret s -> ~ occurs s (mask secrets v).
Proof.
  intros secrets v k s Hin (Hne & [Hb1 Hb2] & Hr) Ho.
  destruct (mask_tagged secrets v [] _ (okText_start (list_ascii_of_string v))) as (x & OK & E).
  { unfold erase. rewrite map_map. cbn. apply map_id. }
  rewrite app_nil_r in OK. apply occurs_inf in Ho. rewrite <- E in Ho. destruct (inf_erase _ _ Ho) as (b & I & Eb).
  assert (N : nomb b).
  { apply Forall_forall. intros [m c] Hp. unfold is_mb. cbn.
    assert (Hc : In c (list_ascii_of_string s)) by (rewrite <- Eb; change c with (snd (m, c)); now apply in_map).
    destruct m; [|reflexivity]. cbn. apply orb_false_iff. split; apply Ascii.eqb_neq; intros ->.
    - apply Hb1, occurs_inf. now apply inf_char.
    - apply Hb2, occurs_inf. now apply inf_char. }
  destruct (OK b I N) as [J|[_ J]].
  - apply Hr, occurs_inf. rewrite <- Eb. destruct J as (a & c & J). exists (erase a), (erase c).
    apply (f_equal erase) in J. unfold erase in *. rewrite !map_app in J. exact J.
  - rewrite Forall_forall in J. refine (J (list_ascii_of_string s) _ _ _).
    + apply -> in_rev. apply in_map_iff. exists (k, s). split; [reflexivity|exact Hin].
    + intros Z. apply Hne. apply (f_equal string_of_list_ascii) in Z. now rewrite SL in Z.
    + rewrite Eb. apply inf_refl.
Qed.

Lemma replace_from_none : forall old new l, ~ inf old l -> replace_from old new l 0 = l.
Proof.
  intros old new l. induction l as [|c l IH]; intros H; [reflexivity|]. cbn [replace_from].
  destruct (has_prefix Ascii.eqb old (c :: l)) eqn:E.
  - exfalso. apply H, pre_inf. now apply has_prefix_spec.
  - f_equal. apply IH. intros (a & b & ->). apply H. now exists (c :: a), b.
Qed.
(** A text in which no secret occurs is returned as it is *)
Theorem C43_other_text_is_kept : forall secrets v,
  (forall k s, In (k, s) secrets -> s <> "" /\ ~ occurs s v) -> mask secrets v = v.
Proof.
  induction secrets as [|[k s] secrets IH]; intros v H; [reflexivity|]. cbn [mask fold_left snd].
  fold (mask secrets (replace_all v s marker)).
  destruct (H k s (or_introl eq_refl)) as [Hn Ho].
  replace (replace_all v s marker) with v; [apply IH; intros k' s' Hi; apply (H k'); now right|].
  unfold replace_all, replace_all_l. destruct (list_ascii_of_string s) as [|c l] eqn:E.
  - exfalso. apply Hn. apply (f_equal string_of_list_ascii) in E. now rewrite SL in E.
  - rewrite <- E. rewrite replace_from_none; [now rewrite SL|]. intros I. now apply Ho, occurs_inf.
Qed.

(** ** Values under secret-looking keys do not matter *)
Theorem C43_secret_keys_hide_values : forall secrets m m',
  Forall2 (fun x y : string * string => fst x = fst y /\ (looks_secret (fst x) = false -> snd x = snd y)) m m' ->
  redact_vars m secrets = redact_vars m' secrets.
Proof.
  intros secrets m m' H. induction H as [|[k v] [k' v'] m m' [H1 H2] _ IH]; [reflexivity|]. cbn [fst snd] in *. subst k'.
  unfold redact_vars in *. cbn [map fst snd]. rewrite IH. destruct (looks_secret k); [reflexivity|]. now rewrite H2.
Qed.
(** ... they become the marker, if no secret is part of it *)
Theorem C43_secret_keys_replaced : forall secrets m k v,
  (forall k s, In (k, s) secrets -> s <> "" /\ ~ occurs s marker) ->
  In (k, v) (redact_vars m secrets) -> looks_secret k = true -> v = marker.
Proof.
  intros secrets m k v H Hin Hk. unfold redact_vars in Hin. apply in_map_iff in Hin as ([k' v'] & E & _). cbn in E.
  injection E as <- <-. rewrite Hk. now apply C43_other_text_is_kept.
Qed.
(** ... and no key is lost or added *)
Theorem C43_keys_are_kept : forall m secrets, map fst (redact_vars m secrets) = map fst m.
Proof. intros. unfold redact_vars. rewrite map_map. now apply map_ext. Qed.

Lemma plain_not_marker : forall s, plain_secret s -> ~ occurs s marker.
Proof.
  intros s (Hn & [H1 H2] & H3) Ho. 
  assert (P : exists b, inf b ML /\ erase b = list_ascii_of_string s) by (apply inf_erase; rewrite erase_ML; now apply occurs_inf).
  destruct P as (b & I & E). apply H3, occurs_inf. rewrite <- E.
  assert (N : nomb b).
  { apply Forall_forall. intros [m c] Hp. unfold is_mb. cbn.
    assert (Hc : In c (list_ascii_of_string s)) by (rewrite <- E; change c with (snd (m, c)); now apply in_map).
    destruct m; [|reflexivity]. cbn. apply orb_false_iff. split; apply Ascii.eqb_neq; intros ->.
    - apply H1, occurs_inf. now apply inf_char.
    - apply H2, occurs_inf. now apply inf_char. }
  destruct (nomb_inf_ML b I N) as (a & c & J). exists (erase a), (erase c).
  apply (f_equal erase) in J. unfold erase in *. rewrite !map_app in J. exact J.
Qed.

Lemma redact_vars_clean : forall secrets m k v k0 s, In (k0, s) secrets -> plain_secret s ->
  In (k, v) (redact_vars m secrets) -> ~ occurs s v.
Proof.
  intros secrets m k v k0 s Hs Hp H. unfold redact_vars in H. apply in_map_iff in H as ([k' v'] & E & _). cbn in E.
  injection E as _ <-. eapply C43_no_secret_remains; eauto.
Qed.
Lemma blot_clean : forall m k v s, plain_secret s -> In (k, v) (blot m) -> ~ occurs s v.
Proof. intros m k v s Hp H. unfold blot in H. apply in_map_iff in H as ([k' v'] & E & _). injection E as _ <-. now apply plain_not_marker. Qed.

(** ** Tasks and jobs of any nesting *)
Theorem C43_task_is_clean : forall secrets t k v k0 s,
  In (k0, s) secrets -> plain_secret s -> shown_task (redact_task secrets t) k v -> ~ occurs s v.
Proof.
  intros secrets t k v k0 s Hs Hp H. remember (redact_task secrets t) as x eqn:E. revert t E.
  induction H as [x k v H|x m k v H H'|x p k v H H' IH|x p k v H H' IH|x pl p k v H0 H H' IH|x r H|x sj k v H H'|x sj w k v H H1 H2];
    intros t ->; destruct t; cbn in *.
  - eapply redact_vars_clean; eauto.
  - apply in_map_iff in H as (m' & <- & _). cbn in H'. eapply redact_vars_clean; eauto.
  - apply in_map_iff in H as (p' & <- & _). eauto.
  - apply in_map_iff in H as (p' & <- & _). eauto.
  - destruct t_parallel; [|discriminate]. injection H0 as <-. cbn in H. apply in_map_iff in H as (p' & <- & _). eauto.
  - destruct t_registry; [|discriminate]. injection H as <-. cbn. now apply plain_not_marker.
  - destruct t_subjob; [|discriminate]. injection H as <-. cbn in H'. eapply blot_clean; eauto.
  - destruct t_subjob; [|discriminate]. injection H as <-. cbn in H1. apply in_map_iff in H1 as (w' & <- & _). cbn in H2.
    eapply redact_vars_clean; eauto.
Qed.
Theorem C43_job_is_clean : forall j k v k0 s,
  In (k0, s) (j_secrets j) -> plain_secret s -> shown_job (redact_job j) k v -> ~ occurs s v.
Proof.
  intros j k v k0 s Hs Hp H. remember (redact_job j) as x eqn:E.
  destruct H as [x k v H|x w k v H H'|x k v H|x k v H|x k v H|x t k v H H'|x t k v H H'|x k v H]; subst x; cbn in *.
  - eapply redact_vars_clean; eauto.
  - apply in_map_iff in H as (w' & <- & _). cbn in H'. eapply redact_vars_clean; eauto.
  - eapply redact_vars_clean; eauto.
  - eapply redact_vars_clean; eauto.
  - eapply redact_vars_clean; eauto.
  - apply in_map_iff in H as (t' & <- & _). eapply C43_task_is_clean; eauto.
  - apply in_map_iff in H as (t' & <- & _). eapply C43_task_is_clean; eauto.
  - eapply blot_clean; eauto.
Qed.
(** The secrets themselves and the registry password are always replaced, whatever they are *)
Theorem C43_secrets_are_blotted : forall j k v, In (k, v) (j_secrets (redact_job j)) -> v = marker.
Proof. intros j k v H. cbn in H. unfold blot in H. apply in_map_iff in H as (? & E & _). now injection E as _ <-. Qed.
Theorem C43_password_is_blotted : forall secrets t r, t_registry (redact_task secrets t) = Some r -> rg_password r = marker.
Proof. intros secrets t r H. destruct t; cbn in H. destruct t_registry; [|discriminate]. now injection H as <-. Qed.
(** A log returned contains no plain secret within one part; if the job cannot be read no log is returned *)
Theorem C43_log_is_clean : forall j parts r p k s, read_log (Some j) parts = Some r ->
  In (k, s) (j_secrets j) -> plain_secret s -> In p r -> ~ occurs s p.
Proof.
  intros j parts r p k s H Hs Hp Hin. destruct parts as [|c parts]; cbn in H; injection H as <-; [destruct Hin|].
  change (In p (map (mask (j_secrets j)) (c :: parts))) in Hin. apply in_map_iff in Hin as (p' & <- & _). eapply C43_no_secret_remains; eauto.
Qed.
Theorem C43_log_fails_closed : forall parts, parts <> [] -> read_log None parts = None.
Proof. intros [|? ?] H; [congruence|reflexivity]. Qed.

(** ** Violations *)
(** A task read while its job cannot be read is returned as stored *)
Theorem C43_task_fails_open_refuted : forall t, read_task None t = t.
Proof. reflexivity. Qed.
(** Fields a secret reaches through expressions are returned as stored: the commands, the script, the files, the
    result, the error, sidecars, the body of an each task and everything of a sub-job but secrets and webhooks; for a
    job the output, the result, the error, the defaults and the member "job" of the context *)
Theorem C43_uncovered_task_fields_refuted : forall secrets t,
  let r := redact_task secrets t in
  t_cmd r = t_cmd t /\ t_run r = t_run t /\ t_entrypoint r = t_entrypoint t /\ t_files r = t_files t /\ t_result r = t_result t /\
  t_error r = t_error t /\ t_sidecars r = t_sidecars t /\ t_each r = t_each t /\
  forall s s', t_subjob t = Some s -> t_subjob r = Some s' -> s_tasks s' = s_tasks s /\ s_inputs s' = s_inputs s /\ s_output s' = s_output s.
Proof. intros secrets t. destruct t; cbn. repeat split; destruct t_subjob; try discriminate; injection H as <-; injection H0 as <-; reflexivity. Qed.
Theorem C43_uncovered_job_fields_refuted : forall j,
  let r := redact_job j in j_output r = j_output j /\ j_result r = j_result j /\ j_error r = j_error j /\
    j_defaults r = j_defaults j /\ c_job (j_context r) = c_job (j_context j).
Proof. intros j. destruct j; repeat split. Qed.
End Redacter.

(** A secret with a bracket can survive next to the marker it caused; one that is part of "REDACTED" shows up in the
    markers of others; an empty one leaves the text legible between markers *)
Theorem C43_bracket_secret_refuted : forall w, mask w [("k", "x[")] "xx[" = "x[REDACTED]" /\ occurs "x[" "x[REDACTED]".
Proof. intros w. split; [reflexivity|]. now exists "", "REDACTED]". Qed.
Theorem C43_word_secret_refuted : forall w, mask w [("a", "hunter2"); ("b", "ACT")] "pw=hunter2" = "pw=[RED[REDACTED]ED]" /\
  mask w [("b", "ACT"); ("a", "hunter2")] "pw=hunter2" = "pw=[REDACTED]".
Proof. intros w. split; reflexivity. Qed.
(** A secret split over two log parts is not recognised *)
Theorem C43_split_log_refuted : forall w j, j_secrets j = [("k", "hunter2")] ->
  read_log w (Some j) ["pw=hun"; "ter2"] = Some ["pw=hun"; "ter2"].
Proof. intros w j H. cbn. rewrite H. reflexivity. Qed.

(** * redact.go:31-50, the matchers *)
(** Simplified: strings.ToUpper is modelled on ASCII letters (outside ASCII it only matters for the two letters whose
    capital is in ASCII, dotless i and long s) *)
Definition upper_a (c : ascii) : ascii :=
  let n := N_of_ascii c in if (97 <=? n)%N && (n <=? 122)%N then ascii_of_N (n - 32) else c.
Fixpoint upper (s : string) : string := match s with "" => "" | String c s => String (upper_a c) (upper s) end.
Fixpoint contains_l (old l : list ascii) : bool :=
  has_prefix Ascii.eqb old l || match l with [] => false | _ :: l => contains_l old l end.
Definition contains (s sub : string) : bool := contains_l (list_ascii_of_string sub) (list_ascii_of_string s).
Definition Contains (sub : string) : string -> bool := fun s => contains (upper s) (upper sub).
Definition default_matchers : list (string -> bool) := [Contains "SECRET"; Contains "PASSWORD"; Contains "ACCESS_KEY"].

Lemma contains_spec : forall s sub, contains s sub = true <-> occurs sub s.
Proof.
  intros s sub. rewrite occurs_inf. unfold contains. generalize (list_ascii_of_string sub) (list_ascii_of_string s). clear. intros old l.
  induction l as [|c l IH]; cbn [contains_l].
  - rewrite orb_false_r, has_prefix_spec. split; [apply pre_inf|]. intros ([|? ?] & b & H); [now exists b|discriminate].
  - rewrite orb_true_iff, has_prefix_spec, IH. split.
    + intros [P|I]; [now apply pre_inf|]. destruct I as (a & b & ->). now exists (c :: a), b.
    + apply inf_cons.
Qed.
(** A key is taken for a secret's iff, capitalised, it contains one of the three words *)
Theorem C43_default_keys : forall k, looks_secret default_matchers k = true <->
  occurs "SECRET" (upper k) \/ occurs "PASSWORD" (upper k) \/ occurs "ACCESS_KEY" (upper k).
Proof.
  intros k. unfold looks_secret, default_matchers, Contains. cbn [existsb].
  rewrite orb_false_r, !orb_true_iff, !contains_spec. reflexivity.
Qed.
(** redact.go:20-27 [NewRedacter] *)
Definition new_redacter (ms : list (string -> bool)) : list (string -> bool) := match ms with [] => default_matchers | _ => ms end.
(** engine/coordinator.go:53-58: without configured patterns the default words apply; with patterns, only they do *)
Theorem C43_without_patterns_default : new_redacter [] = default_matchers.
Proof. reflexivity. Qed.

(** * A concrete case *)
Definition ws1 (l : list ascii) : list nat := map (fun _ => 1) l.
Definition case_task : task :=
  let t env pre reg sub := mkTask 1%N 2%N 0%N 1 "t" "" TRunning None None None None None [] [] "echo" "alpine" reg env [] "" 0 ""
    pre [] [] [mkMount "" "volume" "" "/x" [("o", "pw hunter2")]] [] 0%N None None "" "" "" "" None None sub "" [] "" 0 0 None in
  t [("DB_PASSWORD", "abc"); ("URL", "pg://u:hunter2@h")] [t [("X", "hunter2hunter2")] [] None None]
    (Some (mkRegistry "u" "p")) (Some (mkSubJob 0%N "" "" [] [] [("k", "z")] None "" false [mkWebhook "u" [("H", "hunter2")] "" ""])).
Example C43_case_plain : plain_secret "hunter2".
Proof.
  split; [discriminate|]. split; [split|]; intros H; apply contains_spec in H; vm_compute in H; discriminate.
Qed.
Example C43_case : let r := redact_task ws1 default_matchers [("k", "hunter2")] case_task in
  t_env r = [("DB_PASSWORD", marker); ("URL", "pg://u:[REDACTED]@h")] /\
  map t_env (t_pre r) = [[("X", "[REDACTED][REDACTED]")]] /\ t_registry r = Some (mkRegistry "u" marker) /\
  map m_opts (t_mounts r) = [[("o", "pw [REDACTED]")]].
Proof. repeat split; vm_compute; reflexivity. Qed.
Example C43_case_shown : shown_task case_task "X" "hunter2hunter2" /\ shown_task case_task "H" "hunter2".
Proof.
  split.
  - eapply sh_pre; [left; reflexivity|]. apply sh_env. left. reflexivity.
  - eapply sh_subhook; [reflexivity|left; reflexivity|left; reflexivity].
Qed.

Print Assumptions C43_no_secret_remains.
Print Assumptions C43_other_text_is_kept.
Print Assumptions C43_secret_keys_hide_values.
Print Assumptions C43_secret_keys_replaced.
Print Assumptions C43_keys_are_kept.
Print Assumptions C43_task_is_clean.
Print Assumptions C43_job_is_clean.
Print Assumptions C43_secrets_are_blotted.
Print Assumptions C43_password_is_blotted.
Print Assumptions C43_log_is_clean.
Print Assumptions C43_log_fails_closed.
Print Assumptions C43_default_keys.
Print Assumptions C43_task_fails_open_refuted.
Print Assumptions C43_uncovered_task_fields_refuted.
Print Assumptions C43_uncovered_job_fields_refuted.
Print Assumptions C43_bracket_secret_refuted.
Print Assumptions C43_word_secret_refuted.
Print Assumptions C43_split_log_refuted.
