(** C74: what a task runs in its container.  runtime/docker/tcontainer.go:43-218 (createTaskContainer), 514-579
    (initTorkdir, initWorkDir), runtime/docker/docker.go:308-332 (parseCPUs, parseMemory), runtime/docker/archive.go:58-71.
    The calls to the engine, their failures and their order are in Runtime.v; here every call succeeds and the subject is
    the configuration handed to the engine and the process that results from it.
    Parameters (not modelled): the text forms accepted by big.Rat.SetString, units.RAMInBytes and GpuOpts.Set, and
    slug.Make.  The engine's own behaviour is the section "Docker's rules", from its documentation. *)
From Coq Require Import Permutation Ascii QArith.
From Verif Require Import Types Runtime.
Open Scope string_scope.
Open Scope list_scope.
Open Scope Z_scope.

(* ------------------------------------------------------------------ *)
(** * Paths (path/filepath semantics: components, with "", "." dropped and ".." going up, never above the root) *)
Definition cons_to (c : ascii) (l : list string) : list string :=
  match l with x :: xs => String c x :: xs | [] => [String c ""] end.
Fixpoint comps (s : string) : list string :=
  match s with
  | EmptyString => [""]
  | String c r => if Ascii.eqb c "/"%char then "" :: comps r else cons_to c (comps r)
  end.
Definition norm_step (acc : list string) (c : string) : list string :=   (* [acc] is the path so far, last first *)
  if String.eqb c "" then acc else if String.eqb c "." then acc
  else if String.eqb c ".." then tl acc else c :: acc.
Definition path := list string.
(** the absolute path named by [s], seen from directory [d] *)
Definition at_ (d : path) (s : string) : path := rev (fold_left norm_step (comps s) (rev d)).
Definition abs (s : string) : path := at_ [] s.

(* ------------------------------------------------------------------ *)
(** * Model *)
(** mount.go:3-9 *)
Inductive mtype := MVolume | MBind | MTmpfs.
(** what is given to ContainerCreate: container.Config, container.HostConfig, network.NetworkingConfig (the fields set) *)
Record conf := mkConf {
  cf_image : string; cf_env : list string; cf_cmd : list string; cf_entrypoint : list string; cf_workdir : string;
  cf_exposed : list Z;                                  (* ExposedPorts, "n/tcp" *)
  cf_bindings : list (Z * (string * string));           (* PortBindings: port, host address, host port *)
  cf_publish_all : bool; cf_privileged : bool;
  cf_mounts : list (mtype * string * string);           (* type, source, target *)
  cf_nanocpus : Z; cf_memory : Z; cf_devices : list string;
  cf_networks : list (string * (string * list string)) }.     (* name: NetworkID, Aliases *)
(** archive.go:58-71 *)
Record entry := mkEntry { en_name : string; en_mode : Z; en_contents : string }.
(** a created container: its configuration and what is copied into it (directory, archive), in order; the task, whose
    working directory may have been set (tcontainer.go:164) *)
Record created := mkCreated { cr_conf : conf; cr_copies : list (string * list entry); cr_task : task }.

Section Create.
Variable rat : string -> option Q.                 (* big.Rat.SetString *)
Variable ram : string -> option Z.                 (* units.RAMInBytes *)
Variable gpu : string -> option (list string).     (* GpuOpts.Set, Value *)
Variable slug : string -> string.                  (* slug.Make *)

(** int64(n) of a big integer: the low 64 bits (big.Int.Int64) *)
Definition int64 (n : Z) : Z := (n + 2 ^ 63) mod 2 ^ 64 - 2 ^ 63.

(** docker.go:309-324 *)
Definition parse_cpus (l : option limits) : string + Z :=
  match l with
  | None => inr 0
  | Some l =>
      if String.eqb (l_cpus l) "" then inr 0
      else match rat (l_cpus l) with
           | None => inl "failed to parse as a rational number"
           | Some q => let nano := Qred (q * (1000000000 # 1)) in
                       if Pos.eqb (Qden nano) 1 then inr (int64 (Qnum nano)) else inl "value is too precise"
           end
  end.
(** docker.go:326-331 *)
Definition parse_memory (l : option limits) : string + Z :=
  match l with
  | None => inr 0
  | Some l => if String.eqb (l_memory l) "" then inr 0
              else match ram (l_memory l) with None => inl "invalid size" | Some n => inr n end
  end.

(** tcontainer.go:59-86 *)
Definition mount_conf (m : mount) : string + (mtype * string * string) :=
  if String.eqb (m_type m) "volume"
  then if String.eqb (m_target m) "" then inl "volume target is required" else inr (MVolume, m_source m, m_target m)
  else if String.eqb (m_type m) "bind"
  then if String.eqb (m_target m) "" then inl "bind target is required"
       else if String.eqb (m_source m) "" then inl "bind source is required" else inr (MBind, m_source m, m_target m)
  else if String.eqb (m_type m) "tmpfs" then inr (MTmpfs, m_source m, m_target m)
  else inl ("unknown mount type: " ++ m_type m)%string.
Fixpoint mount_confs (ms : list mount) : string + list (mtype * string * string) :=
  match ms with
  | [] => inr []
  | m :: ms => match mount_conf m with
               | inl e => inl e
               | inr c => match mount_confs ms with inl e => inl e | inr cs => inr (c :: cs) end
               end
  end.

(** tcontainer.go:50-55: [order] is the order in which the map is walked *)
Definition env_list (order : smap) : list string :=
  map (fun p => (fst p ++ "=" ++ snd p)%string) order ++ ["TORK_OUTPUT=/tork/stdout"; "TORK_PROGRESS=/tork/progress"].

(** tcontainer.go:171-177: a map keyed by the network; a later entry replaces an earlier one *)
Fixpoint nput (l : list (string * (string * list string))) (k : string) (v : string * list string) :=
  match l with
  | [] => [(k, v)]
  | (k', v') :: l => if String.eqb k' k then (k, v) :: l else (k', v') :: nput l k v
  end.
Definition endpoints (t : task) : list (string * (string * list string)) :=
  fold_left (fun l nw => nput l nw (nw, [slug (t_name t)])) (t_networks t) [].

(** tcontainer.go:159-166 *)
Definition workdir_of (t : task) : string :=
  if negb (String.eqb (t_workdir t) "") then t_workdir t
  else match t_files t with [] => "" | _ => "/tork/workdir" end.

(** tcontainer.go:514-546 *)
Definition tork_archive (t : task) : list entry :=
  mkEntry "stdout" 146 "" :: mkEntry "progress" 146 "" ::         (* 0222 *)
  (if String.eqb (t_run t) "" then [] else [mkEntry "entrypoint" 365 (t_run t)]).   (* 0555 *)
(** tcontainer.go:548-579: [order] is the order in which the map of files is walked; 0444 *)
Definition work_archive (order : smap) : list entry := map (fun p => mkEntry (fst p) 292 (snd p)) order.

(** tcontainer.go:43-218.  [torksrc]: the source the mounter gives to the volume of "/tork"; [envs], [files]: the orders
    in which the two maps are walked. *)
Definition create_task_container (privileged : bool) (torksrc : string) (envs files : smap) (t : task)
    : string + created :=
  if is_noid (t_id t) then inl "task id is required"
  else match mount_confs (t_mounts t) with
  | inl e => inl e
  | inr ms =>
  match parse_cpus (t_limits t) with
  | inl e => inl e
  | inr cpus =>
  match parse_memory (t_limits t) with
  | inl e => inl e
  | inr mem =>
  match (if String.eqb (t_gpus t) "" then Some [] else gpu (t_gpus t)) with
  | None => inl "error setting GPUs"
  | Some devs =>
      let cmd := match t_cmd t with [] => ["/tork/entrypoint"] | c => c end in
      let ep := match t_entrypoint t with
                | [] => if String.eqb (t_run t) "" then [] else ["sh"; "-c"]
                | e => e
                end in
      let ports := match t_probe t with None => [] | Some p => [pb_port p] end in
      inr (mkCreated
        (mkConf (t_image t) (env_list envs) cmd ep (workdir_of t)
           ports (map (fun n => (n, ("127.0.0.1", "0"))) ports)
           false privileged
           (ms ++ [(MVolume, torksrc, "/tork")])
           cpus mem devs (endpoints t))
        (("/tork", tork_archive t) ::
         match t_files t with [] => [] | _ => [(workdir_of t, work_archive files)] end)
        (t <| t_workdir := workdir_of t |>))
  end end end end.
End Create.

(* ------------------------------------------------------------------ *)
(** * Docker's rules (specification of the engine) *)
(** an image: its ENTRYPOINT, CMD, ENV and WORKDIR *)
Record image := mkImage { im_entrypoint : list string; im_cmd : list string; im_env : smap; im_workdir : string }.
Definition file := (Z * string)%type.     (* mode, contents *)
Definition files := path -> option file.
Record process := mkProcess {
  pr_argv : list string; pr_env : string -> option string; pr_cwd : path; pr_files : files }.

(** "k=v" assigns [v] to [k] (split at the first "=") *)
Fixpoint assignment (s : string) : string * string :=
  match s with
  | EmptyString => ("", "")
  | String c r => if Ascii.eqb c "="%char then ("", r)
                  else let '(k, v) := assignment r in (String c k, v)
  end.
(** the value of [k] after a list of assignments, the last one counting *)
Definition assigned (l : list string) (k : string) (d : option string) : option string :=
  fold_left (fun r s => if String.eqb (fst (assignment s)) k then Some (snd (assignment s)) else r) l d.
(** the image's value of a variable *)
Definition image_env (im : image) (k : string) : option string :=
  option_map snd (find (fun p => String.eqb (fst p) k) (im_env im)).

Definition path_eqb (a b : path) : bool := if list_eq_dec string_dec a b then true else false.
(** extracting an archive below a directory: an entry named outside of the directory is refused *)
Definition below (d p : path) : bool := path_eqb (firstn (length d) p) d.
Definition extract1 (d : path) (fs : files) (e : entry) : option files :=
  let p := at_ d (en_name e) in
  if below d p then Some (fun q => if path_eqb q p then Some (en_mode e, en_contents e) else fs q) else None.
Fixpoint extract (d : path) (fs : files) (es : list entry) : option files :=
  match es with
  | [] => Some fs
  | e :: es => match extract1 d fs e with Some fs' => extract d fs' es | None => None end
  end.
Fixpoint copy_all (fs : files) (cs : list (string * list entry)) : option files :=
  match cs with
  | [] => Some fs
  | (d, es) :: cs => match extract (abs d) fs es with Some fs' => copy_all fs' cs | None => None end
  end.

(** the process a created container starts: ENTRYPOINT and CMD of the container, or else of the image (the image's CMD
    only when the container sets neither); variables of the container over those of the image; the files of the image and
    the mounts ([fs0]) with the archives copied over them.  [None]: the engine refused an archive. *)
Definition start_container (im : image) (fs0 : files) (c : created) : option process :=
  match copy_all fs0 (cr_copies c) with
  | None => None
  | Some fs =>
      let f := cr_conf c in
      Some (mkProcess
        (match cf_entrypoint f with
         | [] => im_entrypoint im ++ match cf_cmd f with [] => im_cmd im | c => c end
         | ep => ep ++ cf_cmd f
         end)
        (fun k => assigned (cf_env f) k (image_env im k))
        (if String.eqb (cf_workdir f) "" then abs (im_workdir im) else abs (cf_workdir f))
        fs)
  end.

(* ------------------------------------------------------------------ *)
(** * Specification *)
(** a map, walked in any order *)
Definition walk_of (order m : smap) : Prop := Permutation order m.
(** Go maps have one entry per key *)
Definition is_map (m : smap) : Prop := NoDup (map fst m).
Definition mget (m : smap) (k : string) : option string := option_map snd (find (fun p => String.eqb (fst p) k) m).
Definition no_equals (k : string) : Prop := ~ In "="%char (list_ascii_of_string k).

(** the run: image [im], files [fs0], the node's [privileged] setting; the maps in some order *)
Definition runs (rat : string -> option Q) (ram : string -> option Z) (gpu : string -> option (list string))
    (slug : string -> string) (privileged : bool) (torksrc : string) (im : image) (fs0 : files) (t : task)
    (c : conf) (p : process) : Prop :=
  exists envs fls cr, walk_of envs (t_env t) /\ walk_of fls (t_files t) /\
    create_task_container rat ram gpu slug privileged torksrc envs fls t = inr cr /\
    start_container im fs0 cr = Some p /\ cr_conf cr = c.

(** the command line of a task *)
Inductive command_line (im : image) (t : task) : list string -> Prop :=
| cl_cmd : t_entrypoint t = [] -> t_run t = "" -> t_cmd t <> [] -> command_line im t (im_entrypoint im ++ t_cmd t)
| cl_entrypoint : t_entrypoint t <> [] -> t_cmd t <> [] -> command_line im t (t_entrypoint t ++ t_cmd t)
| cl_script : t_entrypoint t = [] -> t_cmd t = [] -> t_run t <> "" ->
    command_line im t ["sh"; "-c"; "/tork/entrypoint"]
| cl_script_by : t_entrypoint t <> [] -> t_cmd t = [] -> t_run t <> "" ->
    command_line im t (t_entrypoint t ++ ["/tork/entrypoint"]).

(** how a mount of a task appears in the container *)
Inductive mount_shown : mount -> mtype * string * string -> Prop :=
| ms_volume m : m_type m = "volume" -> mount_shown m (MVolume, m_source m, m_target m)
| ms_bind m : m_type m = "bind" -> mount_shown m (MBind, m_source m, m_target m)
| ms_tmpfs m : m_type m = "tmpfs" -> mount_shown m (MTmpfs, m_source m, m_target m).

(** [n] billionths of a processor is exactly the number [q] *)
Definition nanos (q : Q) (n : Z) : Prop := (q * (1000000000 # 1) == n # 1)%Q.
Definition fits_int64 (n : Z) : Prop := - 2 ^ 63 <= n < 2 ^ 63.

(* ------------------------------------------------------------------ *)
(** * Proofs *)
Lemma path_eqb_true a b : path_eqb a b = true <-> a = b.
Proof. unfold path_eqb. destruct (list_eq_dec string_dec a b); split; intros H; congruence. Qed.
Lemma path_eqb_refl a : path_eqb a a = true. Proof. apply path_eqb_true. reflexivity. Qed.
Lemma path_eqb_false a b : a <> b -> path_eqb a b = false.
Proof. intros H. destruct (path_eqb a b) eqn:E; [|reflexivity]. apply path_eqb_true in E. contradiction. Qed.

Lemma extract_other d es : forall fs fs' q, extract d fs es = Some fs' ->
  (forall e, In e es -> at_ d (en_name e) <> q) -> fs' q = fs q.
Proof.
  induction es as [|e es IH]; intros fs fs' q H Hq; cbn in H; [injection H as <-; reflexivity|].
  unfold extract1 in H. destruct (below d (at_ d (en_name e))); [|discriminate].
  rewrite (IH _ _ q H (fun e He => Hq e (or_intror He))).
  rewrite path_eqb_false; [reflexivity|]. intros E. apply (Hq e (or_introl eq_refl)). symmetry; exact E.
Qed.
Lemma extract_in d es : forall fs fs' e, extract d fs es = Some fs' -> In e es ->
  NoDup (map (fun e => at_ d (en_name e)) es) -> fs' (at_ d (en_name e)) = Some (en_mode e, en_contents e).
Proof.
  induction es as [|e0 es IH]; intros fs fs' e H Hin Hn; [contradiction|].
  cbn in H. unfold extract1 in H. destruct (below d (at_ d (en_name e0))) eqn:Hb; [|discriminate].
  cbn in Hn. inversion Hn as [|? ? Hni Hnd]; subst.
  destruct Hin as [<-|Hin]; [|exact (IH _ _ _ H Hin Hnd)].
  rewrite (extract_other _ _ _ _ _ H).
  - now rewrite path_eqb_refl.
  - intros e He E. apply Hni. apply in_map_iff. exists e. split; [exact E|exact He].
Qed.
Lemma extract_below d es : forall fs fs' e, extract d fs es = Some fs' -> In e es -> below d (at_ d (en_name e)) = true.
Proof.
  induction es as [|e0 es IH]; intros fs fs' e H Hin; [contradiction|].
  cbn in H. unfold extract1 in H. destruct (below d (at_ d (en_name e0))) eqn:Hb; [|discriminate].
  destruct Hin as [<-|Hin]; [exact Hb|exact (IH _ _ _ H Hin)].
Qed.

(** assignments *)
Lemma assignment_pair k v : no_equals k -> assignment (k ++ "=" ++ v)%string = (k, v).
Proof.
  induction k as [|c k IH]; intros H; [reflexivity|].
  cbn. destruct (Ascii.eqb_spec c "="%char) as [->|_]; [exfalso; apply H; cbn; auto|].
  change (k ++ String "=" v)%string with (k ++ "=" ++ v)%string. rewrite IH; [reflexivity|]. intros Hin. apply H. cbn. auto.
Qed.
Lemma assigned_app a b k d : assigned (a ++ b) k d = assigned b k (assigned a k d).
Proof. apply fold_left_app. Qed.
Lemma assigned_none l k d : (forall s, In s l -> fst (assignment s) <> k) -> assigned l k d = d.
Proof.
  revert d. induction l as [|s l IH]; intros d H; [reflexivity|].
  change (assigned (s :: l) k d) with (assigned l k (if String.eqb (fst (assignment s)) k then Some (snd (assignment s)) else d)).
  rewrite (proj2 (String.eqb_neq _ _) (H s (or_introl eq_refl))).
  apply IH. intros s' Hs. apply H. right; exact Hs.
Qed.
Lemma assigned_map (m : smap) k d : is_map m -> (forall n v, In (n, v) m -> no_equals n) ->
  assigned (map (fun p => (fst p ++ "=" ++ snd p)%string) m) k d = match mget m k with Some v => Some v | None => d end.
Proof.
  unfold mget. revert d. induction m as [|[n v] m IH]; intros d Hm Hn; [reflexivity|].
  cbn [map find fst snd].
  change (assigned (?s :: ?l) k d) with (assigned l k (if String.eqb (fst (assignment s)) k then Some (snd (assignment s)) else d)).
  rewrite (assignment_pair n v (Hn n v (or_introl eq_refl))). cbn [fst snd].
  inversion Hm as [|? ? Hni Hnd]; subst.
  destruct (String.eqb_spec n k) as [->|Hne].
  - cbn [option_map snd]. apply assigned_none. intros s Hs. apply in_map_iff in Hs as ((n' & v') & <- & Hin).
    cbn [fst snd]. rewrite (assignment_pair n' v' (Hn n' v' (or_intror Hin))). cbn [fst].
    intros ->. apply Hni. apply in_map_iff. exists (k, v'). auto.
  - apply IH; [exact Hnd|]. intros n' v' Hin. apply (Hn n' v'). right; exact Hin.
Qed.
Lemma mget_perm (a b : smap) k : Permutation a b -> is_map b -> mget a k = mget b k.
Proof.
  intros Hp Hb. unfold mget.
  assert (Ha : is_map a) by (unfold is_map; apply (Permutation_NoDup (Permutation_map fst (Permutation_sym Hp)) Hb)).
  assert (Hd : forall m : smap, is_map m -> forall n v, In (n, v) m -> find (fun p => String.eqb (fst p) n) m = Some (n, v)).
  { induction m as [|[n0 v0] m IH]; intros Hm n v Hin; [contradiction|]. cbn.
    inversion Hm as [|? ? Hni Hnd]; subst. destruct Hin as [E|Hin].
    - injection E as <- <-. now rewrite String.eqb_refl.
    - destruct (String.eqb_spec n0 n) as [->|_]; [|exact (IH Hnd n v Hin)].
      exfalso. apply Hni. apply in_map_iff. exists (n, v). auto. }
  destruct (find (fun p => String.eqb (fst p) k) a) as [[n v]|] eqn:Ea.
  - apply find_some in Ea as [Hin He]. cbn in He. apply String.eqb_eq in He. subst n.
    rewrite (Hd b Hb k v (Permutation_in _ Hp Hin)). reflexivity.
  - destruct (find (fun p => String.eqb (fst p) k) b) as [[n v]|] eqn:Eb; [|reflexivity].
    apply find_some in Eb as [Hin He]. cbn in He. apply String.eqb_eq in He. subst n.
    rewrite (Hd a Ha k v (Permutation_in _ (Permutation_sym Hp) Hin)) in Ea. discriminate.
Qed.

Lemma mount_confs_shown ms : forall l, mount_confs ms = inr l -> Forall2 mount_shown ms l.
Proof.
  induction ms as [|m ms IH]; intros l H; cbn in H; [injection H as <-; constructor|].
  destruct (mount_conf m) as [e|c] eqn:Em; [discriminate|].
  destruct (mount_confs ms) as [e|cs] eqn:Es; [discriminate|]. injection H as <-.
  constructor; [|exact (IH _ eq_refl)].
  unfold mount_conf in Em.
  destruct (String.eqb_spec (m_type m) "volume") as [Ev|_].
  { destruct (String.eqb (m_target m) ""); [discriminate|]. injection Em as <-. now constructor. }
  destruct (String.eqb_spec (m_type m) "bind") as [Ev|_].
  { destruct (String.eqb (m_target m) ""); [discriminate|]. destruct (String.eqb (m_source m) ""); [discriminate|].
    injection Em as <-. now constructor. }
  destruct (String.eqb_spec (m_type m) "tmpfs") as [Ev|_]; [|discriminate].
  injection Em as <-. now constructor.
Qed.

Lemma in_nput l k v x : In x (nput l k v) -> x = (k, v) \/ In x l.
Proof.
  induction l as [|[k' v'] l IH]; cbn; [intros [<-|[]]; auto|].
  destruct (String.eqb_spec k' k) as [->|Hne]; cbn; [intros [<-|H]; auto|].
  intros [<-|H]; [auto|]. destruct (IH H); auto.
Qed.
Lemma nput_in l k v : In (k, v) (nput l k v).
Proof. induction l as [|[k' v'] l IH]; cbn; [auto|]. destruct (String.eqb_spec k' k); cbn; auto. Qed.
Lemma nput_keep l k v x : In x l -> fst x <> k -> In x (nput l k v).
Proof.
  induction l as [|[k' v'] l IH]; cbn; [contradiction|]. intros [<-|H] Hn.
  - cbn in Hn. destruct (String.eqb_spec k' k); [contradiction|]. now left.
  - destruct (String.eqb_spec k' k); cbn; auto.
Qed.
Lemma endpoints_in slug t nw e : In (nw, e) (endpoints slug t) <-> In nw (t_networks t) /\ e = (nw, [slug (t_name t)]).
Proof.
  unfold endpoints. set (al := [slug (t_name t)]).
  assert (G : forall ns l, (forall k e, In (k, e) l -> e = (k, al)) ->
    (In (nw, e) (fold_left (fun l nw => nput l nw (nw, al)) ns l) <-> (In nw ns \/ exists e0, In (nw, e0) l) /\ e = (nw, al))).
  { induction ns as [|n ns IH]; intros l Hl; cbn [fold_left].
    - split; [intros H; split; [right; exists e; exact H|exact (Hl _ _ H)]|].
      intros [[[]|(e0 & H)] ->]. rewrite (Hl _ _ H) in H. exact H.
    - rewrite IH.
      + split; intros [H E]; (split; [|exact E]).
        * destruct H as [H|(e0 & H)]; [left; right; exact H|].
          apply in_nput in H as [E0|H]; [injection E0 as -> _; left; left; reflexivity|right; exists e0; exact H].
        * destruct H as [[->|H]|(e0 & H)]; [right; exists (nw, al); apply nput_in|left; exact H|].
          right. destruct (string_dec n nw) as [->|Hne]; [exists (nw, al); apply nput_in|].
          exists e0. apply nput_keep; [exact H|cbn; congruence].
      + intros k e0 H. apply in_nput in H as [E0|H]; [injection E0 as -> ->; reflexivity|exact (Hl _ _ H)]. }
  rewrite G by (intros k e0 []). cbn. split; [intros [[H|(e0 & [])] E]; auto|intros [H E]; auto].
Qed.

(** what the successful runs have in common *)
Section Facts.
Variable rat : string -> option Q.
Variable ram : string -> option Z.
Variable gpu : string -> option (list string).
Variable slug : string -> string.
Lemma create_inv pv src envs fls t cr : create_task_container rat ram gpu slug pv src envs fls t = inr cr ->
  exists ms cpus mem devs, mount_confs (t_mounts t) = inr ms /\ parse_cpus rat (t_limits t) = inr cpus /\
    parse_memory ram (t_limits t) = inr mem /\
    (if String.eqb (t_gpus t) "" then Some [] else gpu (t_gpus t)) = Some devs /\ t_id t <> noid /\
    cr_copies cr = ("/tork", tork_archive t) :: match t_files t with [] => [] | _ => [(workdir_of t, work_archive fls)] end /\
    cr_conf cr = mkConf (t_image t) (env_list envs)
      match t_cmd t with [] => ["/tork/entrypoint"] | c => c end
      match t_entrypoint t with [] => if String.eqb (t_run t) "" then [] else ["sh"; "-c"] | e => e end
      (workdir_of t)
      match t_probe t with None => [] | Some p => [pb_port p] end
      (map (fun n => (n, ("127.0.0.1", "0"))) match t_probe t with None => [] | Some p => [pb_port p] end)
      false pv (ms ++ [(MVolume, src, "/tork")]) cpus mem devs (endpoints slug t).
Proof.
  unfold create_task_container. destruct (is_noid (t_id t)) eqn:Hid; [discriminate|].
  destruct (mount_confs (t_mounts t)) as [e|ms]; [discriminate|].
  destruct (parse_cpus rat (t_limits t)) as [e|cpus]; [discriminate|].
  destruct (parse_memory ram (t_limits t)) as [e|mem]; [discriminate|].
  destruct (if String.eqb (t_gpus t) "" then Some [] else gpu (t_gpus t)) as [devs|]; [|discriminate].
  intros H. injection H as <-. exists ms, cpus, mem, devs. cbn [cr_copies cr_conf].
  repeat (split; [reflexivity|]). split; [|split; reflexivity].
  intros E. rewrite E in Hid. discriminate.
Qed.
End Facts.

Lemma runs_inv rat ram gpu slug pv src im fs0 t c p : runs rat ram gpu slug pv src im fs0 t c p ->
  exists envs fls, Permutation envs (t_env t) /\ Permutation fls (t_files t) /\
    (exists ms cpus mem devs, mount_confs (t_mounts t) = inr ms /\ parse_cpus rat (t_limits t) = inr cpus /\
       parse_memory ram (t_limits t) = inr mem /\
       (if String.eqb (t_gpus t) "" then Some [] else gpu (t_gpus t)) = Some devs /\
       cf_mounts c = ms ++ [(MVolume, src, "/tork")] /\ cf_nanocpus c = cpus /\ cf_memory c = mem /\ cf_devices c = devs) /\
    cf_image c = t_image t /\ cf_privileged c = pv /\ cf_publish_all c = false /\
    cf_exposed c = match t_probe t with None => [] | Some p => [pb_port p] end /\
    cf_bindings c = map (fun n => (n, ("127.0.0.1", "0"))) match t_probe t with None => [] | Some p => [pb_port p] end /\
    cf_networks c = endpoints slug t /\
    pr_argv p = (match (match t_entrypoint t with [] => if String.eqb (t_run t) "" then [] else ["sh"; "-c"] | e => e end) with
         | [] => im_entrypoint im ++ match (match t_cmd t with [] => ["/tork/entrypoint"] | c => c end) with [] => im_cmd im | c => c end
         | ep => ep ++ match t_cmd t with [] => ["/tork/entrypoint"] | c => c end end) /\
    (forall k, pr_env p k = assigned (env_list envs) k (image_env im k)) /\
    pr_cwd p = (if String.eqb (workdir_of t) "" then abs (im_workdir im) else abs (workdir_of t)) /\
    (exists fs1, extract ["tork"] fs0 (tork_archive t) = Some fs1 /\
       (t_files t = [] -> pr_files p = fs1) /\
       (t_files t <> [] -> extract (pr_cwd p) fs1 (work_archive fls) = Some (pr_files p))).
Proof.
  intros (envs & fls & cr & He & Hf & Hc & Hs & <-). exists envs, fls. split; [exact He|]. split; [exact Hf|].
  destruct (create_inv _ _ _ _ _ _ _ _ _ _ Hc) as (ms & cpus & mem & devs & H1 & H2 & H3 & H4 & _ & H5 & H6).
  unfold start_container in Hs. rewrite H5, H6 in Hs. rewrite H6. clear Hc H5 H6.
  cbn [copy_all] in Hs. change (abs "/tork") with ["tork"] in Hs.
  destruct (extract ["tork"] fs0 (tork_archive t)) as [fs1|] eqn:E1; [|discriminate].
  split; [exists ms, cpus, mem, devs; repeat (split; [assumption|]); repeat (split; [reflexivity|]); reflexivity|].
  do 6 (split; [reflexivity|]).
  destruct (t_files t) as [|f0 fr] eqn:Ef.
  - cbn [copy_all] in Hs. injection Hs as <-. cbn [pr_argv pr_env pr_cwd pr_files cf_entrypoint cf_cmd cf_env cf_workdir].
    split; [reflexivity|]. split; [reflexivity|]. split; [reflexivity|].
    exists fs1. split; [reflexivity|]. split; [reflexivity|]. intros H; contradiction H; reflexivity.
  - cbn [copy_all] in Hs.
    destruct (extract (abs (workdir_of t)) fs1 (work_archive fls)) as [fs2|] eqn:E2; [|discriminate].
    injection Hs as <-. cbn [pr_argv pr_env pr_cwd pr_files cf_entrypoint cf_cmd cf_env cf_workdir].
    split; [reflexivity|]. split; [reflexivity|]. split; [reflexivity|].
    exists fs1. split; [reflexivity|]. split; [discriminate|]. intros _.
    assert (Hw : String.eqb (workdir_of t) "" = false).
    { unfold workdir_of. rewrite Ef. destruct (String.eqb (t_workdir t) "") eqn:Ew; [reflexivity|exact Ew]. }
    rewrite Hw. exact E2.
Qed.

(** C74: the command line of the process is the task's: its entrypoint (or the image's) followed by its command, or the
    shell running its script. *)
Theorem C74_command : forall rat ram gpu slug pv src im fs0 t c p argv,
  runs rat ram gpu slug pv src im fs0 t c p -> command_line im t argv -> pr_argv p = argv /\ cf_image c = t_image t.
Proof.
  intros rat ram gpu slug pv src im fs0 t c p argv H Hc.
  destruct (runs_inv _ _ _ _ _ _ _ _ _ _ _ H) as (envs & fls & _ & _ & _ & Hi & _ & _ & _ & _ & _ & Ha & _).
  split; [|exact Hi]. rewrite Ha. destruct Hc as [He Hr Hcm|He Hcm|He Hcm Hr|He Hcm Hr].
  - rewrite He, Hr. cbn. destruct (t_cmd t); [contradiction|reflexivity].
  - destruct (t_entrypoint t); [contradiction|]. destruct (t_cmd t); [contradiction|reflexivity].
  - rewrite He, Hcm. rewrite (proj2 (String.eqb_neq _ _) Hr). reflexivity.
  - destruct (t_entrypoint t); [contradiction|]. rewrite Hcm. reflexivity.
Qed.
Print Assumptions C74_command.

Lemma tork_path n : n = "stdout" \/ n = "progress" \/ n = "entrypoint" -> at_ ["tork"] n = ["tork"; n].
Proof. intros [->|[->| ->]]; reflexivity. Qed.
Lemma tork_nodup t : NoDup (map (fun e => at_ ["tork"] (en_name e)) (tork_archive t)).
Proof.
  unfold tork_archive. destruct (String.eqb (t_run t) ""); cbn [map en_name]; rewrite !tork_path by tauto;
    repeat (constructor; [cbn; intuition discriminate|]); constructor.
Qed.
Lemma work_in (fls m : smap) e : Permutation fls m -> (In e (work_archive fls) <-> exists n c, In (n, c) m /\ e = mkEntry n 292 c).
Proof.
  intros Hp. unfold work_archive. rewrite in_map_iff. split.
  - intros ((n & c) & <- & Hin). exists n, c. split; [exact (Permutation_in _ Hp Hin)|reflexivity].
  - intros (n & c & Hin & ->). exists (n, c). split; [reflexivity|exact (Permutation_in _ (Permutation_sym Hp) Hin)].
Qed.

(** C74: the script the shell runs is the task's, byte for byte and executable, and its output and progress files exist and
    are empty - unless one of the task's own files has the very same path. *)
Theorem C74_script : forall rat ram gpu slug pv src im fs0 t c p,
  runs rat ram gpu slug pv src im fs0 t c p ->
  (forall n x, In (n, x) (t_files t) -> ~ In (at_ (pr_cwd p) n) [["tork"; "stdout"]; ["tork"; "progress"]; ["tork"; "entrypoint"]]) ->
  (t_run t <> "" -> pr_files p ["tork"; "entrypoint"] = Some (365, t_run t)) /\
  pr_files p ["tork"; "stdout"] = Some (146, "") /\ pr_files p ["tork"; "progress"] = Some (146, "").
Proof.
  intros rat ram gpu slug pv src im fs0 t c p H Hf.
  destruct (runs_inv _ _ _ _ _ _ _ _ _ _ _ H) as (envs & fls & _ & Hp & _ & _ & _ & _ & _ & _ & _ & _ & _ & _ & fs1 & E1 & En & Es).
  assert (G : forall e, In e (tork_archive t) -> In (at_ ["tork"] (en_name e)) [["tork"; "stdout"]; ["tork"; "progress"]; ["tork"; "entrypoint"]] ->
    pr_files p (at_ ["tork"] (en_name e)) = Some (en_mode e, en_contents e)).
  { intros e He Hin. rewrite <- (extract_in _ _ _ _ e E1 He (tork_nodup t)).
    destruct (t_files t) as [|f0 fr] eqn:Ef; [rewrite (En eq_refl); reflexivity|].
    apply (extract_other _ _ _ _ _ (Es ltac:(discriminate))).
    intros e' He' E. apply (work_in fls _ e' Hp) in He' as (n & x & Hin' & ->). cbn [en_name] in E.
    apply (Hf n x Hin'). rewrite E. exact Hin. }
  split; [|split].
  - intros Hr. apply (G (mkEntry "entrypoint" 365 (t_run t))).
    + unfold tork_archive. rewrite (proj2 (String.eqb_neq _ _) Hr). cbn. auto.
    + cbn [en_name]. rewrite tork_path by tauto. cbn. auto.
  - apply (G (mkEntry "stdout" 146 "")); [left; reflexivity|]. cbn [en_name]. rewrite tork_path by tauto. left; reflexivity.
  - apply (G (mkEntry "progress" 146 "")); [right; left; reflexivity|]. cbn [en_name]. rewrite tork_path by tauto. right; left; reflexivity.
Qed.
Print Assumptions C74_script.

(** C74: the variables of the process are those of the task over those of the image, plus the two that name the output and
    progress files, which nothing overrides. *)
Theorem C74_environment : forall rat ram gpu slug pv src im fs0 t c p k,
  runs rat ram gpu slug pv src im fs0 t c p ->
  is_map (t_env t) -> (forall n v, In (n, v) (t_env t) -> no_equals n) ->
  pr_env p "TORK_OUTPUT" = Some "/tork/stdout" /\ pr_env p "TORK_PROGRESS" = Some "/tork/progress" /\
  (k <> "TORK_OUTPUT" -> k <> "TORK_PROGRESS" ->
   pr_env p k = match mget (t_env t) k with Some v => Some v | None => image_env im k end).
Proof.
  intros rat ram gpu slug pv src im fs0 t c p k H Hm Hn.
  destruct (runs_inv _ _ _ _ _ _ _ _ _ _ _ H) as (envs & fls & Hp & _ & _ & _ & _ & _ & _ & _ & _ & _ & He & _).
  assert (Hm' : is_map envs) by (exact (Permutation_NoDup (Permutation_map fst (Permutation_sym Hp)) Hm)).
  assert (Hn' : forall n v, In (n, v) envs -> no_equals n) by (intros n v Hin; exact (Hn n v (Permutation_in _ Hp Hin))).
  rewrite !He. unfold env_list. rewrite !assigned_app.
  split; [reflexivity|]. split; [reflexivity|].
  intros K1 K2. rewrite (assigned_map envs k _ Hm' Hn'), (mget_perm envs (t_env t) k Hp Hm).
  apply assigned_none. intros s [<-|[<-|[]]]; cbn; congruence.
Qed.
Print Assumptions C74_environment.

(** C74: the working directory is the task's; each file of the task is in it, read-only, with its contents. *)
Theorem C74_files : forall rat ram gpu slug pv src im fs0 t c p,
  runs rat ram gpu slug pv src im fs0 t c p ->
  pr_cwd p = (if negb (String.eqb (t_workdir t) "") then abs (t_workdir t)
              else match t_files t with [] => abs (im_workdir im) | _ => ["tork"; "workdir"] end) /\
  (NoDup (map (fun f => at_ (pr_cwd p) (fst f)) (t_files t)) ->
   forall n x, In (n, x) (t_files t) ->
     pr_files p (at_ (pr_cwd p) n) = Some (292, x) /\ below (pr_cwd p) (at_ (pr_cwd p) n) = true).
Proof.
  intros rat ram gpu slug pv src im fs0 t c p H.
  destruct (runs_inv _ _ _ _ _ _ _ _ _ _ _ H) as (envs & fls & _ & Hp & _ & _ & _ & _ & _ & _ & _ & _ & _ & Hw & fs1 & E1 & En & Es).
  split.
  - rewrite Hw. unfold workdir_of. destruct (String.eqb (t_workdir t) "") eqn:Ew; cbn [negb]; [|rewrite Ew; reflexivity].
    destruct (t_files t); reflexivity.
  - intros Hn n x Hin. assert (Hne : t_files t <> []) by (intros E; rewrite E in Hin; contradiction).
    specialize (Es Hne). assert (He : In (mkEntry n 292 x) (work_archive fls)) by (apply (work_in fls _ _ Hp); exists n, x; auto).
    split; [|exact (extract_below _ _ _ _ _ Es He)].
    apply (extract_in _ _ _ _ _ Es He). unfold work_archive. rewrite map_map. cbn [en_name].
    exact (Permutation_NoDup (Permutation_map _ (Permutation_sym Hp)) Hn).
Qed.
Print Assumptions C74_files.

(** C74: no other file of the image or of the mounts is touched. *)
Theorem C74_nothing_else : forall rat ram gpu slug pv src im fs0 t c p q,
  runs rat ram gpu slug pv src im fs0 t c p ->
  ~ In q [["tork"; "stdout"]; ["tork"; "progress"]; ["tork"; "entrypoint"]] ->
  (forall n x, In (n, x) (t_files t) -> at_ (pr_cwd p) n <> q) -> pr_files p q = fs0 q.
Proof.
  intros rat ram gpu slug pv src im fs0 t c p q H Hq Hf.
  destruct (runs_inv _ _ _ _ _ _ _ _ _ _ _ H) as (envs & fls & _ & Hp & _ & _ & _ & _ & _ & _ & _ & _ & _ & _ & fs1 & E1 & En & Es).
  assert (G : fs1 q = fs0 q).
  { apply (extract_other _ _ _ _ _ E1). intros e He E. apply Hq. rewrite <- E. unfold tork_archive in He.
    destruct (String.eqb (t_run t) ""); cbn in He; destruct He as [<-|[<-|He]]; try (destruct He as [<-|[]]);
      try contradiction; cbn [en_name]; rewrite tork_path by tauto; cbn; tauto. }
  destruct (t_files t) as [|f0 fr] eqn:Ef; [rewrite (En eq_refl); exact G|].
  rewrite <- G. apply (extract_other _ _ _ _ _ (Es ltac:(discriminate))).
  intros e He E. apply (work_in fls _ e Hp) in He as (n & x & Hin & ->). exact (Hf n x Hin E).
Qed.
Print Assumptions C74_nothing_else.

(** C74: the container sees the task's mounts, each as declared and in order, and one private volume; it is attached to the
    task's networks and to no other. *)
Theorem C74_mounts_networks : forall rat ram gpu slug pv src im fs0 t c p,
  runs rat ram gpu slug pv src im fs0 t c p ->
  (exists l, cf_mounts c = l ++ [(MVolume, src, "/tork")] /\ Forall2 mount_shown (t_mounts t) l) /\
  (forall nw e, In (nw, e) (cf_networks c) <-> In nw (t_networks t) /\ e = (nw, [slug (t_name t)])).
Proof.
  intros rat ram gpu slug pv src im fs0 t c p H.
  destruct (runs_inv _ _ _ _ _ _ _ _ _ _ _ H) as (envs & fls & _ & _ & (ms & cpus & mem & devs & H1 & _ & _ & _ & H5 & _) & _ & _ & _ & _ & _ & Hn & _).
  split; [exists ms; split; [exact H5|exact (mount_confs_shown _ _ H1)]|].
  intros nw e. rewrite Hn. apply endpoints_in.
Qed.
Print Assumptions C74_mounts_networks.

(** C74: a task never widens what the node allows: privileged mode is the node's setting; no port is published except the
    probe's, and that one on the loopback address only; devices only on request. *)
Theorem C74_confined : forall rat ram gpu slug pv src im fs0 t c p,
  runs rat ram gpu slug pv src im fs0 t c p ->
  cf_privileged c = pv /\ cf_publish_all c = false /\
  (forall port hp, In (port, hp) (cf_bindings c) -> hp = ("127.0.0.1", "0") /\ exists pb, t_probe t = Some pb /\ port = pb_port pb) /\
  (t_probe t = None -> cf_exposed c = [] /\ cf_bindings c = []) /\
  (t_gpus t = "" -> cf_devices c = []).
Proof.
  intros rat ram gpu slug pv src im fs0 t c p H.
  destruct (runs_inv _ _ _ _ _ _ _ _ _ _ _ H) as (envs & fls & _ & _ & (ms & cpus & mem & devs & _ & _ & _ & H4 & _ & _ & _ & H8) & _ & Hv & Ha & He & Hb & _).
  split; [exact Hv|]. split; [exact Ha|]. split; [|split].
  - intros port hp Hin. rewrite Hb in Hin. destruct (t_probe t) as [pb|]; [|contradiction].
    destruct Hin as [E|[]]. injection E as <- <-. split; [reflexivity|]. exists pb. auto.
  - intros E. rewrite He, Hb, E. split; reflexivity.
  - intros E. rewrite E in H4. cbn in H4. injection H4 as <-. exact H8.
Qed.
Print Assumptions C74_confined.

Lemma int64_fits n : fits_int64 n -> int64 n = n.
Proof. unfold fits_int64, int64. intros H. rewrite Z.mod_small; lia. Qed.

(** C74: the limits of the container are the task's: the processor limit is exactly the number written (in billionths),
    if it is in the range of the engine's counter; the memory limit is the size written; no limit means none. *)
Theorem C74_limits : forall rat ram gpu slug pv src im fs0 t c p,
  runs rat ram gpu slug pv src im fs0 t c p ->
  match t_limits t with
  | None => cf_nanocpus c = 0 /\ cf_memory c = 0
  | Some l =>
      (l_cpus l = "" -> cf_nanocpus c = 0) /\
      (l_cpus l <> "" -> exists q n, rat (l_cpus l) = Some q /\ nanos q n /\ (fits_int64 n -> cf_nanocpus c = n)) /\
      (l_memory l = "" -> cf_memory c = 0) /\ (l_memory l <> "" -> ram (l_memory l) = Some (cf_memory c))
  end.
Proof.
  intros rat ram gpu slug pv src im fs0 t c p H.
  destruct (runs_inv _ _ _ _ _ _ _ _ _ _ _ H) as (envs & fls & _ & _ & (ms & cpus & mem & devs & _ & H2 & H3 & _ & _ & H6 & H7 & _) & _).
  rewrite H6, H7. unfold parse_cpus in H2. unfold parse_memory in H3.
  destruct (t_limits t) as [l|]; [|injection H2 as <-; injection H3 as <-; split; reflexivity].
  split; [|split; [|split]].
  - intros E. rewrite E in H2. cbn in H2. injection H2 as <-. reflexivity.
  - intros E. rewrite (proj2 (String.eqb_neq _ _) E) in H2. destruct (rat (l_cpus l)) as [q|]; [|discriminate].
    destruct (Pos.eqb_spec (Qden (Qred (q * (1000000000 # 1)))) 1) as [Ed|_]; [|discriminate].
    injection H2 as <-. exists q, (Qnum (Qred (q * (1000000000 # 1)))). split; [reflexivity|]. split.
    + unfold nanos. rewrite <- (Qred_correct (q * (1000000000 # 1))) at 1.
      destruct (Qred (q * (1000000000 # 1))) as [n d]. cbn in Ed |- *. subst d. reflexivity.
    + intros F. apply int64_fits. exact F.
  - intros E. rewrite E in H3. cbn in H3. injection H3 as <-. reflexivity.
  - intros E. rewrite (proj2 (String.eqb_neq _ _) E) in H3. destruct (ram (l_memory l)); [|discriminate].
    injection H3 as <-. reflexivity.
Qed.
Print Assumptions C74_limits.

(** C74: pre, post and sidecar tasks see the same mounts, networks and limits as the task they belong to. *)
Theorem C74_helpers : forall rat ram gpu slug pv src src' im im' fs0 fs0' t i h c c' p p',
  runs rat ram gpu slug pv src im fs0 t c p -> runs rat ram gpu slug pv src' im' fs0' (inherit t i h) c' p' ->
  removelast (cf_mounts c') = removelast (cf_mounts c) /\ cf_nanocpus c' = cf_nanocpus c /\ cf_memory c' = cf_memory c /\
  (forall nw, In nw (map fst (cf_networks c')) <-> In nw (map fst (cf_networks c))) /\ cf_image c' = t_image h.
Proof.
  intros rat ram gpu slug pv src src' im im' fs0 fs0' t i h c c' p p' H H'.
  pose proof (proj2 (C74_mounts_networks _ _ _ _ _ _ _ _ _ _ _ H)) as N.
  pose proof (proj2 (C74_mounts_networks _ _ _ _ _ _ _ _ _ _ _ H')) as N'.
  destruct (runs_inv _ _ _ _ _ _ _ _ _ _ _ H) as (envs & fls & _ & _ & (ms & cpus & mem & devs & H1 & H2 & H3 & H4 & H5 & H6 & H7 & H8) & _).
  destruct (runs_inv _ _ _ _ _ _ _ _ _ _ _ H') as (envs' & fls' & _ & _ & (ms' & cpus' & mem' & devs' & H1' & H2' & H3' & H4' & H5' & H6' & H7' & H8') & Hi & _).
  change (t_mounts (inherit t i h)) with (t_mounts t) in H1'.
  change (t_limits (inherit t i h)) with (t_limits t) in H2', H3'.
  rewrite H1 in H1'. injection H1' as <-. rewrite H2 in H2'. injection H2' as <-. rewrite H3 in H3'. injection H3' as <-.
  rewrite H5, H5', H6, H6', H7, H7', !removelast_last. repeat (split; [reflexivity|]). split; [|exact Hi].
  intros nw. rewrite !in_map_iff. split.
  - intros ((n & e) & <- & Hin). apply N' in Hin as [Hin _]. exists (n, (n, [slug (t_name t)])). split; [reflexivity|].
    apply N. split; [exact Hin|reflexivity].
  - intros ((n & e) & <- & Hin). apply N in Hin as [Hin _]. exists (n, (n, [slug (t_name (inherit t i h))])). split; [reflexivity|].
    apply N'. split; [exact Hin|reflexivity].
Qed.
Print Assumptions C74_helpers.

(** which mounts a container accepts *)
Definition good_mount (m : mount) : Prop :=
  m_type m = "tmpfs" \/ (m_type m = "volume" /\ m_target m <> "") \/
  (m_type m = "bind" /\ m_target m <> "" /\ m_source m <> "").
Lemma mount_conf_ok m : good_mount m <-> exists c, mount_conf m = inr c.
Proof.
  unfold good_mount, mount_conf. split.
  - intros [->|[[-> H]|(-> & H & H')]]; cbn.
    + eexists; reflexivity.
    + rewrite (proj2 (String.eqb_neq _ _) H). eexists; reflexivity.
    + rewrite (proj2 (String.eqb_neq _ _) H), (proj2 (String.eqb_neq _ _) H'). eexists; reflexivity.
  - intros (c & H). destruct (String.eqb_spec (m_type m) "volume") as [E|_].
    { destruct (String.eqb_spec (m_target m) ""); [discriminate|]. auto. }
    destruct (String.eqb_spec (m_type m) "bind") as [E|_].
    { destruct (String.eqb_spec (m_target m) ""); [discriminate|]. destruct (String.eqb_spec (m_source m) ""); [discriminate|]. auto. }
    destruct (String.eqb_spec (m_type m) "tmpfs") as [E|_]; [auto|discriminate].
Qed.
Lemma mount_confs_ok ms : Forall good_mount ms <-> exists l, mount_confs ms = inr l.
Proof.
  induction ms as [|m ms IH]; cbn.
  - split; [eexists; reflexivity|constructor].
  - split.
    + intros H. inversion H as [|? ? Hm Hs]; subst. apply mount_conf_ok in Hm as (c & ->). apply IH in Hs as (l & ->).
      eexists; reflexivity.
    + intros (l & H). destruct (mount_conf m) as [e|c] eqn:Em; [discriminate|].
      destruct (mount_confs ms) as [e|cs] eqn:Es; [discriminate|].
      constructor; [apply mount_conf_ok; exists c; exact Em|apply IH; exists cs; reflexivity].
Qed.
(** a limit that can be enforced *)
Definition good_cpus (rat : string -> option Q) (s : string) : Prop :=
  s = "" \/ exists q n, rat s = Some q /\ nanos q n.
Lemma Qred_int n : Qred (n # 1) = (n # 1)%Q.
Proof.
  unfold Qred. pose proof (Z.ggcd_gcd n 1) as G. pose proof (Z.ggcd_correct_divisors n 1) as D.
  destruct (Z.ggcd n 1) as [g [aa bb]]. cbn [fst snd] in *. rewrite Z.gcd_1_r in G. subst g.
  destruct D as [D1 D2]. rewrite Z.mul_1_l in D1, D2. subst aa bb. reflexivity.
Qed.

(** C74: a container is created exactly for the tasks with an identifier, mounts of the three kinds with what they need,
    limits and device requests that can be read; a processor limit finer than a billionth is refused, not rounded. *)
Theorem C74_accepted : forall rat ram gpu slug pv src envs fls t,
  (exists cr, create_task_container rat ram gpu slug pv src envs fls t = inr cr) <->
  (t_id t <> noid /\ Forall good_mount (t_mounts t) /\
   (forall l, t_limits t = Some l -> good_cpus rat (l_cpus l) /\ (l_memory l = "" \/ exists n, ram (l_memory l) = Some n)) /\
   (t_gpus t = "" \/ exists d, gpu (t_gpus t) = Some d)).
Proof.
  intros rat ram gpu slug pv src envs fls t. split.
  - intros (cr & H). destruct (create_inv _ _ _ _ _ _ _ _ _ _ H) as (ms & cpus & mem & devs & H1 & H2 & H3 & H4 & Hid & _).
    split; [exact Hid|]. split; [apply mount_confs_ok; exists ms; exact H1|]. split.
    + intros l El. unfold parse_cpus in H2. unfold parse_memory in H3. rewrite El in H2, H3. split.
      * destruct (String.eqb_spec (l_cpus l) "") as [E|_]; [left; exact E|right].
        destruct (rat (l_cpus l)) as [q|]; [|discriminate].
        destruct (Pos.eqb_spec (Qden (Qred (q * (1000000000 # 1)))) 1) as [Ed|_]; [|discriminate].
        exists q, (Qnum (Qred (q * (1000000000 # 1)))). split; [reflexivity|].
        unfold nanos. rewrite <- (Qred_correct (q * (1000000000 # 1))) at 1.
        destruct (Qred (q * (1000000000 # 1))) as [n d]. cbn in Ed |- *. subst d. reflexivity.
      * destruct (String.eqb_spec (l_memory l) "") as [E|_]; [left; exact E|right].
        destruct (ram (l_memory l)) as [n|]; [exists n; reflexivity|discriminate].
    + destruct (String.eqb_spec (t_gpus t) "") as [E|_]; [left; exact E|right]. exists devs. exact H4.
  - intros (Hid & Hm & Hl & Hg). unfold create_task_container.
    assert (E0 : is_noid (t_id t) = false) by (apply N.eqb_neq; exact Hid). rewrite E0.
    apply mount_confs_ok in Hm as (ms & ->).
    assert (E1 : exists n, parse_cpus rat (t_limits t) = inr n).
    { unfold parse_cpus. destruct (t_limits t) as [l|]; [|eexists; reflexivity].
      destruct (Hl l eq_refl) as [[->|(q & n & Hq & Hn)] _]; [eexists; reflexivity|].
      destruct (String.eqb (l_cpus l) ""); [eexists; reflexivity|]. rewrite Hq.
      assert (Er : Qred (q * (1000000000 # 1)) = (n # 1)%Q).
      { unfold nanos in Hn. rewrite (Qred_complete _ _ Hn). apply Qred_int. }
      rewrite Er. cbn. eexists; reflexivity. }
    destruct E1 as (n1 & ->).
    assert (E2 : exists n, parse_memory ram (t_limits t) = inr n).
    { unfold parse_memory. destruct (t_limits t) as [l|]; [|eexists; reflexivity].
      destruct (Hl l eq_refl) as [_ [->|(n & Hn)]]; [eexists; reflexivity|].
      destruct (String.eqb (l_memory l) ""); [eexists; reflexivity|]. rewrite Hn. eexists; reflexivity. }
    destruct E2 as (n2 & ->).
    assert (E3 : exists d, (if String.eqb (t_gpus t) "" then Some [] else gpu (t_gpus t)) = Some d).
    { destruct Hg as [->|(d & Hd)]; [eexists; reflexivity|]. destruct (String.eqb (t_gpus t) ""); [eexists; reflexivity|].
      exists d. exact Hd. }
    destruct E3 as (d & ->). eexists; reflexivity.
Qed.
Print Assumptions C74_accepted.

(* ------------------------------------------------------------------ *)
(** * Examples *)
Definition no_task : task :=
  mkTask 0%N 0%N 0%N 0 "" "" TCreated None None None None None [] [] "" "" None [] [] "" 0 "" [] [] [] [] [] 0%N None None "" "" ""
    "" None None None "" [] "" 0 0 None.
(** a parser of decimal fractions for the examples *)
Definition ex_rat (s : string) : option Q :=
  if String.eqb s "1.5" then Some (3 # 2)%Q
  else if String.eqb s "0.0000000001" then Some (1 # 10000000000)%Q
  else if String.eqb s "18446744073.709551616" then Some (18446744073709551616 # 1000000000)%Q else None.
Definition ex_ram (s : string) : option Z := if String.eqb s "1m" then Some 1048576 else None.
Definition ex_image : image := mkImage ["/docker-entrypoint.sh"] ["nginx"] [("PATH", "/bin"); ("A", "image")] "/srv".
Definition empty : files := fun _ => None.
Definition ex_task : task :=
  no_task <| t_id := 7%N |> <| t_name := "build" |> <| t_image := "ubuntu" |> <| t_run := "make > $TORK_OUTPUT" |>
    <| t_env := [("A", "task"); ("TORK_OUTPUT", "/elsewhere")] |> <| t_files := [("Makefile", "all:"); ("src/a.c", "int x;")] |>
    <| t_limits := Some (mkLimits "1.5" "1m") |> <| t_networks := ["net1"] |>
    <| t_mounts := [mkMount "m" "volume" "v1" "/data" []] |>.
Definition ex_run := create_task_container ex_rat ex_ram (fun _ => None) (fun s => s) false "vtork"
  (t_env ex_task) (rev (t_files ex_task)) ex_task.
Definition ex_process := match ex_run with inr cr => start_container ex_image empty cr | inl _ => None end.

(** the hypotheses are met: a script with files, variables, a mount, limits and a network *)
Example C74_example : exists c p, runs ex_rat ex_ram (fun _ => None) (fun s => s) false "vtork" ex_image empty ex_task c p /\
  command_line ex_image ex_task ["sh"; "-c"; "/tork/entrypoint"] /\ is_map (t_env ex_task) /\
  (forall n v, In (n, v) (t_env ex_task) -> no_equals n) /\
  pr_argv p = ["sh"; "-c"; "/tork/entrypoint"] /\ pr_files p ["tork"; "entrypoint"] = Some (365, "make > $TORK_OUTPUT") /\
  map (pr_env p) ["A"; "PATH"; "TORK_OUTPUT"; "B"] = [Some "task"; Some "/bin"; Some "/tork/stdout"; None] /\
  pr_cwd p = ["tork"; "workdir"] /\ pr_files p ["tork"; "workdir"; "src"; "a.c"] = Some (292, "int x;") /\
  cf_nanocpus c = 1500000000 /\ cf_memory c = 1048576 /\
  cf_mounts c = [(MVolume, "v1", "/data"); (MVolume, "vtork", "/tork")] /\
  cf_networks c = [("net1", ("net1", ["build"]))].
Proof.
  destruct ex_run as [e|cr] eqn:Er; [vm_compute in Er; discriminate|].
  destruct (start_container ex_image empty cr) as [p|] eqn:Es; [|vm_compute in Er; injection Er as <-; vm_compute in Es; discriminate].
  exists (cr_conf cr), p.
  split; [exists (t_env ex_task), (rev (t_files ex_task)), cr; split; [apply Permutation_refl|];
          split; [apply Permutation_sym; apply Permutation_rev|]; split; [exact Er|]; split; [exact Es|reflexivity]|].
  split; [apply cl_script; [reflexivity|reflexivity|discriminate]|].
  split; [repeat (constructor; [cbn; intuition discriminate|]); constructor|].
  split; [intros n v [E|[E|[]]]; injection E as <- <-; unfold no_equals; cbn; intuition discriminate|].
  vm_compute in Er. injection Er as <-. vm_compute in Es. injection Es as <-.
  split; [vm_compute; reflexivity|]. split; [vm_compute; reflexivity|]. split; [vm_compute; reflexivity|].
  split; [vm_compute; reflexivity|]. split; [vm_compute; reflexivity|]. split; [vm_compute; reflexivity|].
  split; [vm_compute; reflexivity|]. split; vm_compute; reflexivity.
Qed.

(** helper for the refutations: the run of a task whose maps are walked as they are *)
Definition run_of (t : task) : option (conf * process) :=
  match create_task_container ex_rat ex_ram (fun _ => None) (fun s => s) false "vtork" (t_env t) (t_files t) t with
  | inl _ => None
  | inr cr => match start_container ex_image empty cr with Some p => Some (cr_conf cr, p) | None => None end
  end.
Lemma run_of_runs t c p : run_of t = Some (c, p) ->
  runs ex_rat ex_ram (fun _ => None) (fun s => s) false "vtork" ex_image empty t c p.
Proof.
  unfold run_of. destruct (create_task_container _ _ _ _ _ _ _ _ t) as [e|cr] eqn:Ec; [discriminate|].
  destruct (start_container ex_image empty cr) as [q|] eqn:Es; [|discriminate]. intros H. injection H as <- <-.
  exists (t_env t), (t_files t), cr. repeat (split; [apply Permutation_refl|]). split; [exact Ec|]. split; [exact Es|reflexivity].
Qed.

(** Not true: "the script of a task is executed".  With a command as well, the shell runs the command's first word only. *)
Theorem C74_script_with_command_refuted : exists t c p,
  runs ex_rat ex_ram (fun _ => None) (fun s => s) false "vtork" ex_image empty t c p /\
  t_run t = "make" /\ t_cmd t = ["ls"; "-l"] /\ pr_argv p = ["sh"; "-c"; "ls"; "-l"].
Proof.
  destruct (run_of (no_task <| t_id := 7%N |> <| t_run := "make" |> <| t_cmd := ["ls"; "-l"] |>)) as [[c p]|] eqn:E; [|vm_compute in E; discriminate].
  eexists _, c, p. split; [exact (run_of_runs _ _ _ E)|]. split; [reflexivity|]. split; [reflexivity|].
  vm_compute in E. injection E as <- <-. reflexivity.
Qed.

(** Not true: "a task that only names an image runs the image's command".  It runs a file that does not exist. *)
Theorem C74_image_command_refuted : exists t c p,
  runs ex_rat ex_ram (fun _ => None) (fun s => s) false "vtork" ex_image empty t c p /\
  t_run t = "" /\ t_cmd t = [] /\ t_entrypoint t = [] /\
  im_cmd ex_image = ["nginx"] /\ pr_argv p = ["/docker-entrypoint.sh"; "/tork/entrypoint"] /\ pr_files p ["tork"; "entrypoint"] = None.
Proof.
  destruct (run_of (no_task <| t_id := 7%N |> <| t_image := "nginx" |>)) as [[c p]|] eqn:E; [|vm_compute in E; discriminate].
  eexists _, c, p. split; [exact (run_of_runs _ _ _ E)|]. do 4 (split; [reflexivity|]).
  vm_compute in E. injection E as <- <-. split; reflexivity.
Qed.

(** The condition of [C74_script] is needed: with the working directory "/tork" a file named "entrypoint" replaces the
    script (and is not executable). *)
Theorem C74_script_replaced_refuted : exists t c p,
  runs ex_rat ex_ram (fun _ => None) (fun s => s) false "vtork" ex_image empty t c p /\
  t_run t = "make" /\ pr_files p ["tork"; "entrypoint"] = Some (292, "other").
Proof.
  destruct (run_of (no_task <| t_id := 7%N |> <| t_run := "make" |> <| t_workdir := "/tork" |> <| t_files := [("entrypoint", "other")] |>)) as [[c p]|] eqn:E; [|vm_compute in E; discriminate].
  eexists _, c, p. split; [exact (run_of_runs _ _ _ E)|]. split; [reflexivity|].
  vm_compute in E. injection E as <- <-. reflexivity.
Qed.

(** The range of [C74_limits] is needed: a processor limit of 2^64 billionths becomes 0, that is, no limit. *)
Theorem C74_limit_overflow_refuted : exists t c p,
  runs ex_rat ex_ram (fun _ => None) (fun s => s) false "vtork" ex_image empty t c p /\
  t_limits t = Some (mkLimits "18446744073.709551616" "") /\ cf_nanocpus c = 0.
Proof.
  destruct (run_of (no_task <| t_id := 7%N |> <| t_limits := Some (mkLimits "18446744073.709551616" "") |>)) as [[c p]|] eqn:E; [|vm_compute in E; discriminate].
  eexists _, c, p. split; [exact (run_of_runs _ _ _ E)|]. split; [reflexivity|].
  vm_compute in E. injection E as <- <-. reflexivity.
Qed.

(** and a limit that is too fine is refused *)
Example C74_too_precise : create_task_container ex_rat ex_ram (fun _ => None) (fun s => s) false "vtork" [] []
  (no_task <| t_id := 7%N |> <| t_limits := Some (mkLimits "0.0000000001" "") |>) = inl "value is too precise".
Proof. reflexivity. Qed.
