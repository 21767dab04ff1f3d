(** C76: what a task runs with the shell runtime.  runtime/shell/shell.go:55-74 (NewShellRuntime), 138-266 (doRun), 281-331
    (reexecRun, buildEnv), runtime/shell/setid_unix.go, internal/reexec/command_linux.go:29-36.
    The order of pre, main and post tasks and the refusals are in Runtime.v; logging in LogShip.v.
    Simplifications: paths are resolved lexically (no symbolic links) and every existing directory can be written to by
    the worker; the arguments that follow "-uid" and "-gid" are taken as given (the flag package). *)
From Coq Require Import Permutation Ascii.
From Verif Require Import Types Runtime Container.
Open Scope string_scope.
Open Scope list_scope.
Open Scope Z_scope.

(* ------------------------------------------------------------------ *)
(** * The operating system (POSIX rules) *)
Record cred := mkCred { c_ruid : Z; c_euid : Z; c_suid : Z; c_rgid : Z; c_egid : Z; c_sgid : Z }.
Definition os_setuid (u : Z) (c : cred) : option cred :=
  if Z.eqb (c_euid c) 0 then Some (mkCred u u u (c_rgid c) (c_egid c) (c_sgid c))
  else if Z.eqb u (c_ruid c) || Z.eqb u (c_suid c) then Some (mkCred (c_ruid c) u (c_suid c) (c_rgid c) (c_egid c) (c_sgid c))
  else None.
Definition os_setgid (g : Z) (c : cred) : option cred :=
  if Z.eqb (c_euid c) 0 then Some (mkCred (c_ruid c) (c_euid c) (c_suid c) g g g)
  else if Z.eqb g (c_rgid c) || Z.eqb g (c_sgid c) then Some (mkCred (c_ruid c) (c_euid c) (c_suid c) (c_rgid c) g (c_sgid c))
  else None.
(** files and directories *)
Record fsys := mkFs { fs_dirs : path -> bool; fs_files : files }.
(** os.WriteFile: create (mode under the umask) or truncate (the mode stays; the owner's write bit is needed unless root) *)
Definition write_file (root : bool) (umask : Z) (s : fsys) (p : path) (mode : Z) (c : string) : option fsys :=
  if negb (fs_dirs s (removelast p)) || fs_dirs s p || match p with [] => true | _ => false end then None
  else match fs_files s p with
       | Some (m, _) =>
           if root || Z.testbit m 7
           then Some (mkFs (fs_dirs s) (fun q => if path_eqb q p then Some (m, c) else fs_files s q)) else None
       | None => Some (mkFs (fs_dirs s) (fun q => if path_eqb q p then Some (Z.ldiff mode umask, c) else fs_files s q))
       end.
(** os.MkdirTemp: a new empty directory; os.RemoveAll *)
Definition make_dir (s : fsys) (d : path) : fsys := mkFs (fun q => path_eqb q d || fs_dirs s q) (fs_files s).
Definition remove_dir (s : fsys) (d : path) : fsys :=
  mkFs (fun q => negb (below d q) && fs_dirs s q) (fun q => if below d q then None else fs_files s q).
(** a directory of mode 0700 (os.MkdirTemp) can be entered by its owner and by root only *)
Definition may_enter (owner : Z) (c : cred) : bool := Z.eqb (c_euid c) 0 || Z.eqb (c_euid c) owner.

(* ------------------------------------------------------------------ *)
(** * Model *)
(** shell.go:38-53 *)
Record scfg := mkScfg { s_shell : list string; s_uid : string; s_gid : string }.
(** shell.go:55-74; DEFAULT_UID and DEFAULT_GID are "-" *)
Definition new_shell (cmd : list string) (uid gid : string) : scfg :=
  mkScfg (match cmd with [] => ["bash"; "-c"] | c => c end)
    (if String.eqb uid "" then "-" else uid) (if String.eqb gid "" then "-" else gid).

(** the worker's process: its identity, umask and os.Getenv *)
Record host := mkHost { h_cred : cred; h_umask : Z; h_getenv : string -> string }.
Definition root_of (h : host) : bool := Z.eqb (c_euid (h_cred h)) 0.

(** shell.go:154-164, 175: [order]: the order in which the map of files is walked *)
Fixpoint write_files (root : bool) (um : Z) (s : fsys) (d : path) (order : smap) : option fsys :=
  match order with
  | [] => Some s
  | (n, c) :: order => match write_file root um s (at_ d n) 292 c with   (* 0444 *)
                       | Some s' => write_files root um s' d order
                       | None => None
                       end
  end.
Definition prepare (h : host) (s : fsys) (d : path) (order : smap) (t : task) : option fsys :=
  let w := write_file (root_of h) (h_umask h) in
  match w (make_dir s d) (d ++ ["stdout"]) 390 "" with                    (* 0606 *)
  | None => None
  | Some s1 =>
  match w s1 (d ++ ["progress"]) 390 "" with
  | None => None
  | Some s2 =>
  match write_files (root_of h) (h_umask h) s2 d order with
  | None => None
  | Some s3 => w s3 (d ++ ["entrypoint"]) 365 (t_run t)                   (* 0555 *)
  end end end.

(** shell.go:166-173: the environment of the re-executed worker; [w] is the text of the directory *)
Definition env1 (h : host) (w : string) (order : smap) : list string :=
  map (fun p => ("REEXEC_" ++ fst p ++ "=" ++ snd p)%string) order ++
  [("REEXEC_TORK_OUTPUT=" ++ w ++ "/stdout")%string; ("REEXEC_TORK_PROGRESS=" ++ w ++ "/progress")%string;
   ("WORKDIR=" ++ w)%string; ("PATH=" ++ h_getenv h "PATH")%string; ("HOME=" ++ h_getenv h "HOME")%string].
(** shell.go:311-327 *)
Fixpoint drop (n : nat) (s : string) : string :=
  match n, s with S n, String _ s => drop n s | _, s => s end.
Definition build_env (environ : list string) : list string :=
  flat_map (fun s => let '(k, v) := assignment s in
                     if String.prefix "REEXEC_" k then [(drop 7 k ++ "=" ++ v)%string] else []) environ.
(** os.Getenv in the re-executed worker; os/exec leaves the last value of a variable *)
Definition getenv (environ : list string) (k : string) : string :=
  match assigned environ k None with Some v => v | None => "" end.
(** shell.go:281-303 *)
Definition env2 (environ : list string) : list string :=
  build_env environ ++ [("WORKDIR=" ++ getenv environ "WORKDIR")%string; ("PATH=" ++ getenv environ "PATH")%string;
                        ("HOME=" ++ getenv environ "HOME")%string].

Section Shell.
Variable atoi : string -> option Z.
(** setid_unix.go:12-34; [None] is log.Fatal *)
Definition set_uid (u : string) (c : cred) : option cred :=
  if String.eqb u "-" then Some c else match atoi u with None => None | Some n => os_setuid n c end.
Definition set_gid (g : string) (c : cred) : option cred :=
  if String.eqb g "-" then Some c else match atoi g with None => None | Some n => os_setgid n c end.
(** shell.go:287-288 *)
Definition switch (cfg : scfg) (c : cred) : option cred :=
  match set_uid (s_uid cfg) c with None => None | Some c' => set_gid (s_gid cfg) c' end.

(** the process of the script *)
Record sproc := mkSproc { sp_argv : list string; sp_env : string -> option string; sp_cwd : path; sp_cred : cred }.
(** shell.go:138-197 and 281-309: from the empty directory [w] to the start of the script.  [None]: the task fails before. *)
Definition shell_start (h : host) (cfg : scfg) (w : string) (s : fsys) (envs fls : smap) (t : task) : option (sproc * fsys) :=
  match prepare h s (abs w) fls t with
  | None => None
  | Some s' =>
      let environ := env1 h w envs in
      let wd := getenv environ "WORKDIR" in
      match switch cfg (h_cred h) with
      | None => None
      | Some c =>
          if String.eqb wd "" then None                               (* shell.go:291-293 *)
          else if may_enter (c_euid (h_cred h)) c
          then Some (mkSproc (s_shell cfg ++ [(w ++ "/entrypoint")%string]) (fun k => assigned (env2 environ) k None) (abs wd) c, s')
          else None
      end
  end.
End Shell.

(** shell.go:236-256: how the wait ends; the status is that of the re-executed worker, which is not 0 if the script's is not
    (shell.go:306-308) *)
Inductive ending := EDone (code : Z) | ECancelled.
(** shell.go:236-266: the result of the task, from the files the script left; then the directory is removed *)
Definition shell_end (w : string) (e : ending) (s : fsys) : (string + string) * fsys :=
  ((match e with
    | EDone c => if Z.eqb c 0
                 then match fs_files s (abs w ++ ["stdout"]) with Some (_, o) => inr o | None => inl "error reading the task output" end
                 else inl "error executing command"
    | ECancelled => inl "context canceled"
    end), remove_dir s (abs w)).

(** The processes of a running task: the re-executed worker and the script, its child.  shell.go:248-251: a cancellation
    kills the first; command_linux.go:29-36: only the first gets a parent-death signal. *)
Record procs := mkProcs { pc_reexec : bool; pc_script : bool }.
Inductive pstep : procs -> procs -> Prop :=
| ps_exit a : pstep (mkProcs a true) (mkProcs a false)                       (* the script ends *)
| ps_reap : pstep (mkProcs true false) (mkProcs false false)
| ps_kill b : pstep (mkProcs true b) (mkProcs false b).                      (* cmd.Process.Kill() *)

(* ------------------------------------------------------------------ *)
(** * Specification *)
(** the directory is new: nothing is in it or below it *)
Definition fresh_dir (s : fsys) (d : path) : Prop :=
  d <> [] /\ fs_dirs s (removelast d) = true /\ (forall q, below d q = true -> fs_dirs s q = false /\ fs_files s q = None).
(** one start of a task with the maps walked in some order *)
Definition starts (atoi : string -> option Z) (h : host) (cfg : scfg) (w : string) (s : fsys) (t : task)
    (p : sproc) (s' : fsys) : Prop :=
  exists envs fls, walk_of envs (t_env t) /\ walk_of fls (t_files t) /\ shell_start atoi h cfg w s envs fls t = Some (p, s').
(** a name directly inside the directory: no "/" and not "", "." or ".." *)
Definition plain_name (n : string) : Prop :=
  n <> "" /\ n <> "." /\ n <> ".." /\ ~ In "/"%char (list_ascii_of_string n).
Definition reserved : list string := ["stdout"; "progress"; "entrypoint"].

(* ------------------------------------------------------------------ *)
(** * Proofs *)
Lemma comps_plain n : ~ In "/"%char (list_ascii_of_string n) -> comps n = [n].
Proof.
  induction n as [|c n IH]; intros H; [reflexivity|]. cbn.
  destruct (Ascii.eqb_spec c "/"%char) as [->|_]; [exfalso; apply H; cbn; auto|].
  rewrite IH; [reflexivity|]. intros Hin. apply H. cbn. auto.
Qed.
Lemma at_plain d n : plain_name n -> at_ d n = d ++ [n].
Proof.
  intros (H1 & H2 & H3 & H4). unfold at_. rewrite (comps_plain n H4). cbn [fold_left]. unfold norm_step.
  rewrite (proj2 (String.eqb_neq _ _) H1), (proj2 (String.eqb_neq _ _) H2), (proj2 (String.eqb_neq _ _) H3).
  cbn [rev]. rewrite rev_involutive. reflexivity.
Qed.
Lemma below_app d q : below d (d ++ q) = true.
Proof. unfold below. rewrite firstn_app, Nat.sub_diag, firstn_all. cbn. rewrite app_nil_r. apply path_eqb_refl. Qed.

Lemma write_file_other root um s p m c s' q : write_file root um s p m c = Some s' -> q <> p -> fs_files s' q = fs_files s q.
Proof.
  unfold write_file. intros H Hq. destruct (negb (fs_dirs s (removelast p)) || fs_dirs s p || _); [discriminate|].
  destruct (fs_files s p) as [[m' c']|].
  - destruct (root || Z.testbit m' 7); [|discriminate]. injection H as <-. cbn. rewrite path_eqb_false; [reflexivity|exact Hq].
  - injection H as <-. cbn. rewrite path_eqb_false; [reflexivity|exact Hq].
Qed.
Lemma write_file_dirs root um s p m c s' : write_file root um s p m c = Some s' -> fs_dirs s' = fs_dirs s.
Proof.
  unfold write_file. intros H. destruct (negb (fs_dirs s (removelast p)) || fs_dirs s p || _); [discriminate|].
  destruct (fs_files s p) as [[m' c']|]; [destruct (root || Z.testbit m' 7); [|discriminate]|]; injection H as <-; reflexivity.
Qed.
Lemma write_file_at root um s p m c s' : write_file root um s p m c = Some s' ->
  exists m', fs_files s' p = Some (m', c) /\ (fs_files s p = None -> m' = Z.ldiff m um).
Proof.
  unfold write_file. intros H. destruct (negb (fs_dirs s (removelast p)) || fs_dirs s p || _); [discriminate|].
  destruct (fs_files s p) as [[m' c']|].
  - destruct (root || Z.testbit m' 7); [|discriminate]. injection H as <-. exists m'. cbn. rewrite path_eqb_refl. split; [reflexivity|discriminate].
  - injection H as <-. exists (Z.ldiff m um). cbn. rewrite path_eqb_refl. split; reflexivity.
Qed.
Lemma write_files_other root um d order : forall s s' q, write_files root um s d order = Some s' ->
  (forall n c, In (n, c) order -> at_ d n <> q) -> fs_files s' q = fs_files s q.
Proof.
  induction order as [|[n c] order IH]; intros s s' q H Hq; cbn in H; [injection H as <-; reflexivity|].
  destruct (write_file root um s (at_ d n) 292 c) as [s1|] eqn:E; [|discriminate].
  rewrite (IH _ _ q H (fun n' c' Hin => Hq n' c' (or_intror Hin))).
  apply (write_file_other _ _ _ _ _ _ _ _ E). intros ->. exact (Hq n c (or_introl eq_refl) eq_refl).
Qed.
Lemma write_files_in root um d order : forall s s' n c, write_files root um s d order = Some s' -> In (n, c) order ->
  NoDup (map (fun p => at_ d (fst p)) order) -> exists m, fs_files s' (at_ d n) = Some (m, c) /\
    (fs_files s (at_ d n) = None -> m = Z.ldiff 292 um).
Proof.
  induction order as [|[n0 c0] order IH]; intros s s' n c H Hin Hn; [contradiction|].
  cbn in H. destruct (write_file root um s (at_ d n0) 292 c0) as [s1|] eqn:E; [|discriminate].
  inversion Hn as [|? ? Hni Hnd]; subst. cbn [fst] in Hni.
  destruct Hin as [Eq|Hin].
  - injection Eq as <- <-. destruct (write_file_at _ _ _ _ _ _ _ E) as (m & Em & Hm). exists m. split; [|exact Hm].
    rewrite (write_files_other _ _ _ _ _ _ _ H); [exact Em|]. intros n c Hin Hc. apply Hni. apply in_map_iff. exists (n, c). auto.
  - destruct (IH _ _ _ _ H Hin Hnd) as (m & Em & Hm). exists m. split; [exact Em|]. intros Hs. apply Hm.
    rewrite (write_file_other _ _ _ _ _ _ _ _ E); [exact Hs|]. intros Hc. apply Hni. apply in_map_iff. exists (n, c). auto.
Qed.
Lemma write_files_dirs root um d order : forall s s', write_files root um s d order = Some s' -> fs_dirs s' = fs_dirs s.
Proof.
  induction order as [|[n c] order IH]; intros s s' H; cbn in H; [injection H as <-; reflexivity|].
  destruct (write_file root um s (at_ d n) 292 c) as [s1|] eqn:E; [|discriminate].
  rewrite (IH _ _ H). exact (write_file_dirs _ _ _ _ _ _ _ E).
Qed.

Lemma prepare_inv h s d order t s' : prepare h s d order t = Some s' ->
  exists s1 s2 s3, write_file (root_of h) (h_umask h) (make_dir s d) (d ++ ["stdout"]) 390 "" = Some s1 /\
    write_file (root_of h) (h_umask h) s1 (d ++ ["progress"]) 390 "" = Some s2 /\
    write_files (root_of h) (h_umask h) s2 d order = Some s3 /\
    write_file (root_of h) (h_umask h) s3 (d ++ ["entrypoint"]) 365 (t_run t) = Some s'.
Proof.
  unfold prepare. intros H.
  destruct (write_file (root_of h) (h_umask h) (make_dir s d) (d ++ ["stdout"]) 390 "") as [s1|]; [|discriminate].
  destruct (write_file (root_of h) (h_umask h) s1 (d ++ ["progress"]) 390 "") as [s2|] eqn:E2; [|discriminate].
  destruct (write_files (root_of h) (h_umask h) s2 d order) as [s3|] eqn:E3; [|discriminate].
  exists s1, s2, s3. auto.
Qed.
Lemma last_neq {A} (d : list A) a b : a <> b -> d ++ [a] <> d ++ [b].
Proof. intros H E. apply app_inv_head in E. injection E as E. contradiction. Qed.

(** the environment *)
Lemma app_nil_s s : (s ++ "")%string = s. Proof. induction s; cbn; congruence. Qed.
Lemma app_assoc_s a b c : ((a ++ b) ++ c)%string = (a ++ (b ++ c))%string.
Proof. induction a; cbn; congruence. Qed.
Lemma no_equals_app a b : no_equals a -> no_equals b -> no_equals (a ++ b).
Proof.
  unfold no_equals. intros Ha Hb. induction a as [|c a IH]; [exact Hb|]. cbn. intros [->|H].
  - apply Ha. cbn. auto.
  - apply IH; [|exact H]. intros H'. apply Ha. cbn. auto.
Qed.
Lemma no_equals_reexec n : no_equals n -> no_equals ("REEXEC_" ++ n).
Proof. intros H. apply no_equals_app; [|exact H]. unfold no_equals. cbn. intuition discriminate. Qed.
Lemma prefix_reexec n : String.prefix "REEXEC_" ("REEXEC_" ++ n) = true.
Proof. cbn. destruct n; reflexivity. Qed.

Lemma build_reexec n v l : no_equals n ->
  build_env (("REEXEC_" ++ n ++ "=" ++ v)%string :: l) = (n ++ "=" ++ v)%string :: build_env l.
Proof.
  intros H. unfold build_env. cbn [flat_map].
  rewrite <- (app_assoc_s "REEXEC_" n ("=" ++ v)), (assignment_pair _ v (no_equals_reexec n H)), prefix_reexec. reflexivity.
Qed.
Lemma build_skip k v l : no_equals k -> String.prefix "REEXEC_" k = false ->
  build_env ((k ++ "=" ++ v)%string :: l) = build_env l.
Proof. intros H Hp. unfold build_env. cbn [flat_map]. rewrite (assignment_pair k v H), Hp. reflexivity. Qed.
Lemma build_env1 h w order : (forall n v, In (n, v) order -> no_equals n) ->
  build_env (env1 h w order) = map (fun p => (fst p ++ "=" ++ snd p)%string) order ++
    [("TORK_OUTPUT=" ++ w ++ "/stdout")%string; ("TORK_PROGRESS=" ++ w ++ "/progress")%string].
Proof.
  intros H. unfold env1. induction order as [|[n v] order IH].
  - cbn [map app fst snd]. reflexivity.
  - cbn [map app fst snd]. rewrite (build_reexec n v _ (H n v (or_introl eq_refl))). f_equal.
    apply IH. intros n' v' Hin. exact (H n' v' (or_intror Hin)).
Qed.
Lemma getenv_env1 h w order k v : (forall n v, In (n, v) order -> no_equals n) ->
  In (k, v) [("WORKDIR", w); ("PATH", h_getenv h "PATH"); ("HOME", h_getenv h "HOME")] -> getenv (env1 h w order) k = v.
Proof.
  intros H Hin. unfold getenv, env1. rewrite assigned_app.
  destruct Hin as [E|[E|[E|[]]]]; injection E as <- <-; reflexivity.
Qed.

Lemma starts_inv atoi h cfg w s t p s' : starts atoi h cfg w s t p s' ->
  exists envs fls, Permutation envs (t_env t) /\ Permutation fls (t_files t) /\ prepare h s (abs w) fls t = Some s' /\
    sp_argv p = s_shell cfg ++ [(w ++ "/entrypoint")%string] /\
    (forall k, sp_env p k = assigned (env2 (env1 h w envs)) k None) /\
    sp_cwd p = abs (getenv (env1 h w envs) "WORKDIR") /\ getenv (env1 h w envs) "WORKDIR" <> "" /\
    switch atoi cfg (h_cred h) = Some (sp_cred p) /\ may_enter (c_euid (h_cred h)) (sp_cred p) = true.
Proof.
  intros (envs & fls & He & Hf & H). exists envs, fls. split; [exact He|]. split; [exact Hf|]. unfold shell_start in H.
  destruct (prepare h s (abs w) fls t) as [s1|]; [|discriminate].
  destruct (switch atoi cfg (h_cred h)) as [c|]; [|discriminate].
  destruct (String.eqb_spec (getenv (env1 h w envs) "WORKDIR") ""); [discriminate|].
  destruct (may_enter (c_euid (h_cred h)) c) eqn:Em; [|discriminate]. injection H as <- <-.
  split; [reflexivity|]. split; [reflexivity|]. split; [reflexivity|]. split; [reflexivity|]. split; [assumption|].
  split; [reflexivity|exact Em].
Qed.

(** C76: the script of the task, and nothing else, is what the shell is given, in the directory of the task. *)
Theorem C76_command : forall atoi h cfg w s t p s', starts atoi h cfg w s t p s' ->
  sp_argv p = s_shell cfg ++ [(w ++ "/entrypoint")%string] /\
  exists m, fs_files s' (abs w ++ ["entrypoint"]) = Some (m, t_run t).
Proof.
  intros atoi h cfg w s t p s' H. apply starts_inv in H as (envs & fls & _ & _ & Hp & Ha & _).
  split; [exact Ha|]. apply prepare_inv in Hp as (s1 & s2 & s3 & _ & _ & _ & H4).
  destruct (write_file_at _ _ _ _ _ _ _ H4) as (m & Em & _). exists m. exact Em.
Qed.
Print Assumptions C76_command.

Lemma assigned_cons s l k d : assigned (s :: l) k d =
  assigned l k (if String.eqb (fst (assignment s)) k then Some (snd (assignment s)) else d).
Proof. reflexivity. Qed.
Lemma assigned_pair n v l k d : no_equals n ->
  assigned ((n ++ "=" ++ v)%string :: l) k d = assigned l k (if String.eqb n k then Some v else d).
Proof. intros H. rewrite assigned_cons, (assignment_pair n v H). reflexivity. Qed.

(** C76: the environment of the script: the directory of the task, the worker's PATH and HOME, the places of the result and
    of the progress, then the task's own variables; nothing else of the worker's environment. *)
Theorem C76_environment : forall atoi h cfg w s t p s' k,
  is_map (t_env t) -> (forall n v, In (n, v) (t_env t) -> no_equals n) -> starts atoi h cfg w s t p s' ->
  sp_cwd p = abs w /\
  sp_env p k =
    if String.eqb k "WORKDIR" then Some w
    else if String.eqb k "PATH" then Some (h_getenv h "PATH")
    else if String.eqb k "HOME" then Some (h_getenv h "HOME")
    else if String.eqb k "TORK_OUTPUT" then Some (w ++ "/stdout")%string
    else if String.eqb k "TORK_PROGRESS" then Some (w ++ "/progress")%string
    else mget (t_env t) k.
Proof.
  intros atoi h cfg w s t p s' k Hm Hn H. apply starts_inv in H as (envs & fls & He & _ & _ & _ & Hv & Hc & _).
  assert (Hn' : forall n v, In (n, v) envs -> no_equals n).
  { intros n v Hin. exact (Hn n v (Permutation_in _ He Hin)). }
  assert (Hm' : is_map envs) by exact (Permutation_NoDup (Permutation_map fst (Permutation_sym He)) Hm).
  split; [rewrite Hc, (getenv_env1 h w envs "WORKDIR" w Hn'); [reflexivity|left; reflexivity]|].
  rewrite Hv. unfold env2. rewrite (build_env1 h w envs Hn').
  rewrite (getenv_env1 h w envs "WORKDIR" w Hn') by (left; reflexivity).
  rewrite (getenv_env1 h w envs "PATH" _ Hn') by (right; left; reflexivity).
  rewrite (getenv_env1 h w envs "HOME" _ Hn') by (right; right; left; reflexivity).
  rewrite assigned_app, assigned_app, (assigned_map envs k None Hm' Hn'), (mget_perm envs (t_env t) k He Hm).
  assert (Q : forall n, In n ["TORK_OUTPUT"; "TORK_PROGRESS"; "WORKDIR"; "PATH"; "HOME"] -> no_equals n).
  { intros n Hin. unfold no_equals. cbn in Hin. intuition (subst n; cbn in *; intuition discriminate). }
  rewrite (assigned_pair "TORK_OUTPUT" (w ++ "/stdout") _ k _ (Q _ (or_introl eq_refl))).
  rewrite (assigned_pair "TORK_PROGRESS" (w ++ "/progress") _ k _ (Q _ (or_intror (or_introl eq_refl)))).
  rewrite (assigned_pair "WORKDIR" w _ k _ (Q _ (or_intror (or_intror (or_introl eq_refl))))).
  rewrite (assigned_pair "PATH" (h_getenv h "PATH") _ k _ (Q _ (or_intror (or_intror (or_intror (or_introl eq_refl)))))).
  rewrite (assigned_pair "HOME" (h_getenv h "HOME") _ k _ (Q _ (or_intror (or_intror (or_intror (or_intror (or_introl eq_refl))))))).
  cbn [assigned fold_left].
  rewrite !(String.eqb_sym _ k).
  destruct (String.eqb_spec k "WORKDIR") as [->|]; [reflexivity|].
  destruct (String.eqb_spec k "PATH") as [->|]; [reflexivity|].
  destruct (String.eqb_spec k "HOME") as [->|]; [reflexivity|].
  destruct (String.eqb_spec k "TORK_OUTPUT") as [->|]; [reflexivity|].
  destruct (String.eqb_spec k "TORK_PROGRESS") as [->|]; [reflexivity|].
  destruct (mget (t_env t) k); reflexivity.
Qed.
Print Assumptions C76_environment.

(** C76: a configured user or group is the one the script runs as; without one it is the worker's. *)
Theorem C76_identity : forall atoi h uid gid cmd w s t p s',
  starts atoi h (new_shell cmd uid gid) w s t p s' ->
  (uid = "" \/ uid = "-" -> c_euid (sp_cred p) = c_euid (h_cred h)) /\
  (uid <> "" -> uid <> "-" -> exists n, atoi uid = Some n /\ c_euid (sp_cred p) = n) /\
  (gid = "" \/ gid = "-" -> c_egid (sp_cred p) = c_egid (h_cred h)) /\
  (gid <> "" -> gid <> "-" -> exists n, atoi gid = Some n /\ c_egid (sp_cred p) = n).
Proof.
  intros atoi h uid gid cmd w s t p s' H. apply starts_inv in H as (_ & _ & _ & _ & _ & _ & _ & _ & _ & Hs & _).
  unfold switch, new_shell in Hs. cbn [s_uid s_gid] in Hs.
  assert (U : forall u c c', set_uid atoi (if String.eqb u "" then "-" else u) c = Some c' ->
    c_egid c' = c_egid c /\ (u = "" \/ u = "-" -> c_euid c' = c_euid c) /\
    (u <> "" -> u <> "-" -> exists n, atoi u = Some n /\ c_euid c' = n)).
  { intros u c c' E. unfold set_uid in E. destruct (String.eqb_spec u "") as [->|Hu].
    - injection E as <-. split; [reflexivity|]. split; [reflexivity|]. intros []; reflexivity.
    - destruct (String.eqb_spec u "-") as [->|Hd].
      + injection E as <-. split; [reflexivity|]. split; [reflexivity|]. intros _ []; reflexivity.
      + destruct (atoi u) as [n|]; [|discriminate]. unfold os_setuid in E.
        destruct (Z.eqb (c_euid c) 0); [injection E as <-|destruct (Z.eqb n (c_ruid c) || Z.eqb n (c_suid c)); [injection E as <-|discriminate]];
          (split; [reflexivity|]; split; [intros [?|?]; contradiction|]; intros _ _; exists n; split; reflexivity). }
  assert (G : forall g c c', set_gid atoi (if String.eqb g "" then "-" else g) c = Some c' ->
    c_euid c' = c_euid c /\ (g = "" \/ g = "-" -> c_egid c' = c_egid c) /\
    (g <> "" -> g <> "-" -> exists n, atoi g = Some n /\ c_egid c' = n)).
  { intros u c c' E. unfold set_gid in E. destruct (String.eqb_spec u "") as [->|Hu].
    - injection E as <-. split; [reflexivity|]. split; [reflexivity|]. intros []; reflexivity.
    - destruct (String.eqb_spec u "-") as [->|Hd].
      + injection E as <-. split; [reflexivity|]. split; [reflexivity|]. intros _ []; reflexivity.
      + destruct (atoi u) as [n|]; [|discriminate]. unfold os_setgid in E.
        destruct (Z.eqb (c_euid c) 0); [injection E as <-|destruct (Z.eqb n (c_rgid c) || Z.eqb n (c_sgid c)); [injection E as <-|discriminate]];
          (split; [reflexivity|]; split; [intros [?|?]; contradiction|]; intros _ _; exists n; split; reflexivity). }
  destruct (set_uid atoi _ (h_cred h)) as [c1|] eqn:E1; [|discriminate].
  destruct (U _ _ _ E1) as (U1 & U2 & U3). destruct (G _ _ _ Hs) as (G1 & G2 & G3).
  split; [intros Hu; rewrite G1; exact (U2 Hu)|].
  split; [intros Ha Hb; destruct (U3 Ha Hb) as (n & En & Eu); exists n; split; [exact En|rewrite G1; exact Eu]|].
  split; [intros Hg; rewrite (G2 Hg); exact U1|]. exact G3.
Qed.
Print Assumptions C76_identity.

(** C76 (a finding): a script is never run as another user than the worker's, or root: a task of a worker configured with
    such a user always fails. *)
Theorem C76_other_user_never_runs : forall atoi h uid gid cmd w s t p s' n,
  atoi uid = Some n -> uid <> "" -> uid <> "-" -> n <> 0 -> n <> c_euid (h_cred h) ->
  ~ starts atoi h (new_shell cmd uid gid) w s t p s'.
Proof.
  intros atoi h uid gid cmd w s t p s' n Hn Hu1 Hu2 H0 Hne H.
  destruct (C76_identity _ _ _ _ _ _ _ _ _ _ H) as (_ & I & _). destruct (I Hu1 Hu2) as (n' & En & Eu).
  rewrite Hn in En. injection En as <-.
  apply starts_inv in H as (_ & _ & _ & _ & _ & _ & _ & _ & _ & _ & Hm).
  unfold may_enter in Hm. rewrite Eu in Hm. apply orb_prop in Hm as [Hm|Hm]; apply Z.eqb_eq in Hm; contradiction.
Qed.
Print Assumptions C76_other_user_never_runs.

(** C76 (a finding): with a user other than root configured, a group other than the worker's cannot be used either: the user
    is changed first. *)
Theorem C76_group_after_user : forall atoi h uid gid cmd w s t p s' n g,
  atoi uid = Some n -> uid <> "" -> uid <> "-" -> n <> 0 -> atoi gid = Some g -> gid <> "" -> gid <> "-" ->
  starts atoi h (new_shell cmd uid gid) w s t p s' -> g = c_rgid (h_cred h) \/ g = c_sgid (h_cred h).
Proof.
  intros atoi h uid gid cmd w s t p s' n g Hn Hu1 Hu2 H0 Hg Hg1 Hg2 H.
  apply starts_inv in H as (_ & _ & _ & _ & _ & _ & _ & _ & _ & Hs & _).
  unfold switch, new_shell in Hs. cbn [s_uid s_gid] in Hs.
  rewrite (proj2 (String.eqb_neq _ _) Hu1), (proj2 (String.eqb_neq _ _) Hg1) in Hs.
  unfold set_uid, set_gid in Hs. rewrite (proj2 (String.eqb_neq _ _) Hu2), (proj2 (String.eqb_neq _ _) Hg2), Hn, Hg in Hs.
  destruct (os_setuid n (h_cred h)) as [c1|] eqn:E1; [|discriminate].
  assert (Ec : c_euid c1 = n /\ c_rgid c1 = c_rgid (h_cred h) /\ c_sgid c1 = c_sgid (h_cred h)).
  { unfold os_setuid in E1. destruct (Z.eqb (c_euid (h_cred h)) 0); [injection E1 as <-; auto|].
    destruct (Z.eqb n (c_ruid (h_cred h)) || Z.eqb n (c_suid (h_cred h))); [injection E1 as <-; auto|discriminate]. }
  destruct Ec as (Eu & Er & Es). unfold os_setgid in Hs. rewrite Eu, (proj2 (Z.eqb_neq _ _) H0), Er, Es in Hs.
  destruct (Z.eqb_spec g (c_rgid (h_cred h))) as [->|]; [left; reflexivity|].
  destruct (Z.eqb_spec g (c_sgid (h_cred h))) as [->|]; [right; reflexivity|discriminate].
Qed.
Print Assumptions C76_group_after_user.

Lemma plain_nodup d (m : smap) : is_map m -> (forall n c, In (n, c) m -> plain_name n) ->
  NoDup (map (fun p => at_ d (fst p)) m).
Proof.
  induction m as [|[n c] m IH]; intros Hm Hp; cbn [map fst]; [constructor|].
  inversion Hm as [|? ? Hni Hnd]; subst. constructor.
  - intros Hin. apply in_map_iff in Hin as ((n' & c') & E & Hin). cbn [fst] in E.
    rewrite (at_plain d n (Hp n c (or_introl eq_refl))), (at_plain d n' (Hp n' c' (or_intror Hin))) in E.
    apply app_inv_head in E. injection E as ->. apply Hni. apply in_map_iff. exists (n, c'). auto.
  - apply IH; [exact Hnd|]. intros n' c' Hin. exact (Hp n' c' (or_intror Hin)).
Qed.

(** C76: the files of the task are in its directory when the script starts, with their contents, to be read by everyone the
    umask admits; the result and progress files are there and empty. *)
Theorem C76_files : forall atoi h cfg w s t p s',
  starts atoi h cfg w s t p s' -> fresh_dir s (abs w) -> is_map (t_files t) ->
  (forall n c, In (n, c) (t_files t) -> plain_name n /\ ~ In n reserved) ->
  (forall n c, In (n, c) (t_files t) -> fs_files s' (abs w ++ [n]) = Some (Z.ldiff 292 (h_umask h), c)) /\
  fs_files s' (abs w ++ ["stdout"]) = Some (Z.ldiff 390 (h_umask h), "") /\
  fs_files s' (abs w ++ ["progress"]) = Some (Z.ldiff 390 (h_umask h), "") /\
  fs_files s' (abs w ++ ["entrypoint"]) = Some (Z.ldiff 365 (h_umask h), t_run t) /\
  (forall q, below (abs w) q = false -> fs_files s' q = fs_files s q) /\
  (forall q, fs_dirs s' q = true <-> q = abs w \/ fs_dirs s q = true).
Proof.
  intros atoi h cfg w s t p s' H (Hd0 & Hd1 & Hfr) Hm Hpl.
  apply starts_inv in H as (envs & fls & _ & Hf & Hp & _). set (d := abs w) in *.
  assert (Hm' : is_map fls) by exact (Permutation_NoDup (Permutation_map fst (Permutation_sym Hf)) Hm).
  assert (Hpl' : forall n c, In (n, c) fls -> plain_name n /\ ~ In n reserved)
    by (intros n c Hin; exact (Hpl n c (Permutation_in _ Hf Hin))).
  pose proof (plain_nodup d fls Hm' (fun n c Hin => proj1 (Hpl' n c Hin))) as Hnd.
  assert (Hat : forall n c, In (n, c) fls -> at_ d n = d ++ [n]) by (intros n c Hin; exact (at_plain d n (proj1 (Hpl' n c Hin)))).
  assert (Hres : forall r n c, In r reserved -> In (n, c) fls -> at_ d n <> d ++ [r]).
  { intros r n c Hr Hin. rewrite (Hat n c Hin). apply last_neq. intros ->. exact (proj2 (Hpl' r c Hin) Hr). }
  assert (Hout : forall n c q, In (n, c) fls -> below d q = false -> at_ d n <> q).
  { intros n c q Hin Hq <-. rewrite (Hat n c Hin), below_app in Hq. discriminate. }
  assert (Hrest : forall r q, below d q = false -> q <> d ++ [r]) by (intros r q Hq ->; rewrite below_app in Hq; discriminate).
  apply prepare_inv in Hp as (s1 & s2 & s3 & H1 & H2 & H3 & H4).
  pose proof (fun q => proj2 (Hfr _ (below_app d q))) as Hn0.
  assert (N0 : forall q, fs_files (make_dir s d) (d ++ q) = None) by exact Hn0.
  destruct (write_file_at _ _ _ _ _ _ _ H1) as (m1 & F1 & M1). specialize (M1 (N0 _)). subst m1.
  assert (N1 : forall n, n <> "stdout" -> fs_files s1 (d ++ [n]) = None)
    by (intros n Hn; rewrite (write_file_other _ _ _ _ _ _ _ _ H1 (last_neq d n _ Hn)); exact (N0 _)).
  destruct (write_file_at _ _ _ _ _ _ _ H2) as (m2 & F2 & M2).
  assert (P2 : "progress" <> "stdout") by discriminate. specialize (M2 (N1 _ P2)). subst m2.
  assert (N2 : forall n, n <> "stdout" -> n <> "progress" -> fs_files s2 (d ++ [n]) = None)
    by (intros n Hn Hn'; rewrite (write_file_other _ _ _ _ _ _ _ _ H2 (last_neq d n _ Hn')); exact (N1 _ Hn)).
  assert (P3 : "stdout" <> "progress") by discriminate. assert (P4 : "stdout" <> "entrypoint") by discriminate.
  assert (P5 : "progress" <> "entrypoint") by discriminate. assert (P6 : "entrypoint" <> "stdout") by discriminate.
  assert (P7 : "entrypoint" <> "progress") by discriminate.
  split; [|split; [|split; [|split; [|split]]]].
  - intros n c Hin. apply (Permutation_in _ (Permutation_sym Hf)) in Hin.
    destruct (Hpl' n c Hin) as (_ & Hr). cbn in Hr.
    rewrite (write_file_other _ _ _ _ _ _ _ _ H4) by (apply last_neq; intuition).
    destruct (write_files_in _ _ _ _ _ _ _ _ H3 Hin Hnd) as (m & Em & Hmm). rewrite (Hat n c Hin) in Em, Hmm.
    rewrite Em, Hmm; [reflexivity|]. apply N2; intuition.
  - rewrite (write_file_other _ _ _ _ _ _ _ _ H4 (last_neq d _ _ P4)).
    rewrite (write_files_other _ _ _ _ _ _ _ H3 (fun n c Hin => Hres _ n c (or_introl eq_refl) Hin)).
    rewrite (write_file_other _ _ _ _ _ _ _ _ H2 (last_neq d _ _ P3)). exact F1.
  - rewrite (write_file_other _ _ _ _ _ _ _ _ H4 (last_neq d _ _ P5)).
    rewrite (write_files_other _ _ _ _ _ _ _ H3 (fun n c Hin => Hres _ n c (or_intror (or_introl eq_refl)) Hin)). exact F2.
  - destruct (write_file_at _ _ _ _ _ _ _ H4) as (m & Em & Hmm). rewrite Em, Hmm; [reflexivity|].
    rewrite (write_files_other _ _ _ _ _ _ _ H3 (fun n c Hin => Hres _ n c (or_intror (or_intror (or_introl eq_refl))) Hin)).
    exact (N2 _ P6 P7).
  - intros q Hq. rewrite (write_file_other _ _ _ _ _ _ _ _ H4 (Hrest _ q Hq)).
    rewrite (write_files_other _ _ _ _ _ _ _ H3 (fun n c Hin => Hout n c q Hin Hq)).
    rewrite (write_file_other _ _ _ _ _ _ _ _ H2 (Hrest _ q Hq)), (write_file_other _ _ _ _ _ _ _ _ H1 (Hrest _ q Hq)). reflexivity.
  - intros q. rewrite (write_file_dirs _ _ _ _ _ _ _ H4), (write_files_dirs _ _ _ _ _ _ H3),
      (write_file_dirs _ _ _ _ _ _ _ H2), (write_file_dirs _ _ _ _ _ _ _ H1). cbn [fs_dirs make_dir].
    rewrite orb_true_iff, path_eqb_true. reflexivity.
Qed.
Print Assumptions C76_files.

Lemma removelast_snoc {A} (d : list A) a : removelast (d ++ [a]) = d.
Proof. rewrite removelast_app by discriminate. cbn. apply app_nil_r. Qed.
Lemma write_file_new root um s d n m c : fs_dirs s d = true -> fs_dirs s (d ++ [n]) = false -> fs_files s (d ++ [n]) = None ->
  write_file root um s (d ++ [n]) m c =
    Some (mkFs (fs_dirs s) (fun q => if path_eqb q (d ++ [n]) then Some (Z.ldiff m um, c) else fs_files s q)).
Proof.
  intros H1 H2 H3. unfold write_file. rewrite removelast_snoc, H1, H2, H3. cbn [negb orb].
  destruct (d ++ [n]) eqn:E; [destruct d; discriminate|reflexivity].
Qed.

(** C76: a task with files directly in its directory starts, on a worker with no user or group configured. *)
Theorem C76_starts : forall atoi h cmd w s t,
  w <> "" -> fresh_dir s (abs w) -> is_map (t_files t) -> is_map (t_env t) ->
  (forall n v, In (n, v) (t_env t) -> no_equals n) ->
  (forall n c, In (n, c) (t_files t) -> plain_name n /\ ~ In n reserved) ->
  exists p s', starts atoi h (new_shell cmd "" "") w s t p s'.
Proof.
  intros atoi h cmd w s t Hw (Hd0 & Hd1 & Hfr) Hmf Hme He Hf. set (d := abs w) in *.
  assert (D0 : fs_dirs (make_dir s d) d = true) by (cbn; rewrite path_eqb_refl; reflexivity).
  assert (D1 : forall n, fs_dirs (make_dir s d) (d ++ [n]) = false).
  { intros n. cbn. rewrite (proj1 (Hfr _ (below_app d [n]))), path_eqb_false; [reflexivity|].
    intros E. apply (f_equal (@List.length string)) in E. rewrite app_length in E. cbn in E. lia. }
  assert (F1 : forall n, fs_files (make_dir s d) (d ++ [n]) = None) by (intros n; exact (proj2 (Hfr _ (below_app d [n])))).
  assert (W : forall (m : smap) s0, fs_dirs s0 = fs_dirs (make_dir s d) -> is_map m -> (forall n c, In (n, c) m -> plain_name n) ->
    (forall n c, In (n, c) m -> fs_files s0 (d ++ [n]) = None) ->
    exists s1, write_files (root_of h) (h_umask h) s0 d m = Some s1).
  { induction m as [|[n c] m IH]; intros s0 E Hm Hp Hn; [exists s0; reflexivity|]. cbn [write_files].
    inversion Hm as [|? ? Hni Hnd]; subst.
    rewrite (at_plain d n (Hp n c (or_introl eq_refl))), write_file_new;
      [|rewrite E; exact D0|rewrite E; apply D1|exact (Hn n c (or_introl eq_refl))].
    apply IH; [exact E|exact Hnd|intros n' c' Hin; exact (Hp n' c' (or_intror Hin))|].
    intros n' c' Hin. cbn [fs_files]. rewrite path_eqb_false; [exact (Hn n' c' (or_intror Hin))|].
    apply last_neq. intros ->. apply Hni. apply in_map_iff. exists (n, c'). auto. }
  assert (P : exists s', prepare h s d (t_files t) t = Some s').
  { unfold prepare. rewrite (write_file_new _ _ _ _ _ _ _ D0 (D1 _) (F1 _)).
    rewrite write_file_new; [|exact D0|apply D1|cbn [fs_files]; rewrite path_eqb_false; [apply F1|apply last_neq; discriminate]].
    cbn [fs_dirs]. set (s2 := mkFs _ _).
    destruct (W (t_files t) s2 eq_refl Hmf (fun n c Hin => proj1 (Hf n c Hin))) as (s3 & E3).
    { intros n c Hin. destruct (Hf n c Hin) as (_ & Hr). cbn in Hr. unfold s2. cbn [fs_files].
      rewrite path_eqb_false by (apply last_neq; intuition). rewrite path_eqb_false by (apply last_neq; intuition). apply F1. }
    rewrite E3. rewrite write_file_new; [eexists; reflexivity| | |].
    - rewrite (write_files_dirs _ _ _ _ _ _ E3). exact D0.
    - rewrite (write_files_dirs _ _ _ _ _ _ E3). apply D1.
    - rewrite (write_files_other _ _ _ _ _ _ _ E3).
      + unfold s2. cbn [fs_files]. rewrite path_eqb_false by (apply last_neq; discriminate).
        rewrite path_eqb_false by (apply last_neq; discriminate). apply F1.
      + intros n c Hin. rewrite (at_plain d n (proj1 (Hf n c Hin))). apply last_neq. intros ->.
        apply (proj2 (Hf _ _ Hin)). cbn. auto. }
  destruct P as (s' & P). unfold starts.
  destruct (shell_start atoi h (new_shell cmd "" "") w s (t_env t) (t_files t) t) as [[p s2]|] eqn:E.
  - exists p, s2, (t_env t), (t_files t). split; [apply Permutation_refl|]. split; [apply Permutation_refl|exact E].
  - exfalso. unfold shell_start in E. fold d in E. rewrite P in E.
    change (switch atoi (new_shell cmd "" "") (h_cred h)) with (Some (h_cred h)) in E.
    rewrite (getenv_env1 h w (t_env t) "WORKDIR" w He (or_introl eq_refl)), (proj2 (String.eqb_neq _ _) Hw) in E.
    unfold may_enter in E. rewrite Z.eqb_refl, orb_true_r in E. discriminate.
Qed.
Print Assumptions C76_starts.

(** C76 (a finding): a task with a file in a subdirectory never starts: nothing creates the subdirectory. *)
Theorem C76_subdirectory_fails : forall atoi h cfg w s t p s' n c,
  In (n, c) (t_files t) -> removelast (at_ (abs w) n) <> abs w -> fs_dirs s (removelast (at_ (abs w) n)) = false ->
  ~ starts atoi h cfg w s t p s'.
Proof.
  intros atoi h cfg w s t p s' n c Hin Hne Hno H.
  apply starts_inv in H as (envs & fls & _ & Hf & Hp & _). apply (Permutation_in _ (Permutation_sym Hf)) in Hin.
  apply prepare_inv in Hp as (s1 & s2 & s3 & H1 & H2 & H3 & H4).
  assert (E2 : fs_dirs s2 (removelast (at_ (abs w) n)) = false).
  { rewrite (write_file_dirs _ _ _ _ _ _ _ H2), (write_file_dirs _ _ _ _ _ _ _ H1). cbn [make_dir fs_dirs].
    rewrite Hno, path_eqb_false by exact Hne. reflexivity. }
  clear H1 H2 H4 Hf. revert s2 H3 E2. induction fls as [|[n0 c0] fls IH]; intros s2 H3 E2; [contradiction|].
  cbn [write_files] in H3. destruct (write_file _ _ s2 (at_ (abs w) n0) 292 c0) as [s4|] eqn:E; [|discriminate].
  destruct Hin as [Eq|Hin].
  - injection Eq as -> ->. unfold write_file in E. rewrite E2 in E. discriminate.
  - apply (IH Hin s4 H3). rewrite (write_file_dirs _ _ _ _ _ _ _ E). exact E2.
Qed.
Print Assumptions C76_subdirectory_fails.

(** C76: a task has a result exactly if the script ended with status 0 and left the file named by TORK_OUTPUT; the result is
    its contents. *)
Theorem C76_result : forall w e s r,
  fst (shell_end w e s) = inr r <-> e = EDone 0 /\ exists m, fs_files s (abs w ++ ["stdout"]) = Some (m, r).
Proof.
  intros w e s r. unfold shell_end. cbn [fst]. destruct e as [c|].
  - destruct (Z.eqb_spec c 0) as [->|Hc].
    + destruct (fs_files s (abs w ++ ["stdout"])) as [[m o]|].
      * split; [intros H; injection H as <-; split; [reflexivity|exists m; reflexivity]|].
        intros (_ & m' & H). injection H as _ <-. reflexivity.
      * split; [discriminate|]. intros (_ & m' & H). discriminate.
    + split; [discriminate|]. intros (H & _). injection H as ->. contradiction.
  - split; [discriminate|]. intros (H & _). discriminate.
Qed.
Print Assumptions C76_result.

(** C76: when the task has ended, however it ended, nothing is left in its directory; and if its files were named inside
    of it, the rest of the file system is as the script left it. *)
Theorem C76_cleanup : forall w e s r s', shell_end w e s = (r, s') ->
  forall q, (below (abs w) q = true -> fs_dirs s' q = false /\ fs_files s' q = None) /\
            (below (abs w) q = false -> fs_dirs s' q = fs_dirs s q /\ fs_files s' q = fs_files s q).
Proof.
  intros w e s r s' H q. unfold shell_end in H. injection H as _ <-. cbn. split; intros ->; split; reflexivity.
Qed.
Print Assumptions C76_cleanup.
(** a task whose script does nothing leaves the machine as it was *)
Theorem C76_no_trace : forall atoi h cfg w s t p s1 e r s',
  starts atoi h cfg w s t p s1 -> shell_end w e s1 = (r, s') -> fresh_dir s (abs w) -> is_map (t_files t) ->
  (forall n c, In (n, c) (t_files t) -> plain_name n /\ ~ In n reserved) ->
  forall q, fs_dirs s' q = fs_dirs s q /\ fs_files s' q = fs_files s q.
Proof.
  intros atoi h cfg w s t p s1 e r s' Hs He Hfr Hm Hp q.
  destruct (C76_files _ _ _ _ _ _ _ _ Hs Hfr Hm Hp) as (_ & _ & _ & _ & Ho & Hd).
  destruct (C76_cleanup _ _ _ _ _ He q) as (Hb & Hn).
  destruct Hfr as (H0 & H1 & H2).
  destruct (below (abs w) q) eqn:E.
  - destruct (Hb eq_refl) as (-> & ->). destruct (H2 q E) as (-> & ->). split; reflexivity.
  - destruct (Hn eq_refl) as (-> & ->). split; [|exact (Ho q E)].
    specialize (Hd q). destruct (fs_dirs s1 q) eqn:E1, (fs_dirs s q) eqn:E2; try reflexivity.
    + destruct (proj1 Hd eq_refl) as [->|?]; [|discriminate].
      exfalso. unfold below in E. rewrite firstn_all, path_eqb_refl in E. discriminate.
    + discriminate (proj2 Hd (or_intror eq_refl)).
Qed.
Print Assumptions C76_no_trace.

(* ------------------------------------------------------------------ *)
(** * Examples and refutations *)
Definition ex_host : host :=
  mkHost (mkCred 1000 1000 1000 1000 1000 1000) 18 (fun k => if String.eqb k "PATH" then "/usr/bin" else if String.eqb k "HOME" then "/home/tork" else "secret").
Definition root_host : host := mkHost (mkCred 0 0 0 0 0 0) 18 (h_getenv ex_host).
Definition ex_fs : fsys := mkFs (fun q => path_eqb q [] || path_eqb q ["tmp"]) (fun _ => None).
Definition ex_atoi (s : string) : option Z := if String.eqb s "1000" then Some 1000 else if String.eqb s "33" then Some 33 else None.
Definition ex_shell : task :=
  no_task <| t_id := 7%N |> <| t_run := "echo $A > $TORK_OUTPUT" |> <| t_env := [("A", "1"); ("PATH", "/opt/bin")] |>
    <| t_files := [("data.txt", "x"); (".hidden", "y")] |>.
Definition start_of (h : host) (cfg : scfg) (t : task) := shell_start ex_atoi h cfg "/tmp/tork1" ex_fs (t_env t) (t_files t) t.
Lemma start_of_starts h cfg t p s' : start_of h cfg t = Some (p, s') -> starts ex_atoi h cfg "/tmp/tork1" ex_fs t p s'.
Proof. intros H. exists (t_env t), (t_files t). split; [apply Permutation_refl|]. split; [apply Permutation_refl|exact H]. Qed.
Lemma ex_fresh : fresh_dir ex_fs (abs "/tmp/tork1").
Proof.
  split; [discriminate|]. split; [reflexivity|]. intros q Hq. split; [|reflexivity]. cbn.
  unfold below in Hq. apply path_eqb_true in Hq.
  destruct q as [|a [|b q]]; [discriminate Hq|discriminate Hq|]. unfold path_eqb.
  destruct (list_eq_dec string_dec (a :: b :: q) []); [discriminate|].
  destruct (list_eq_dec string_dec (a :: b :: q) ["tmp"]); [discriminate|]. reflexivity.
Qed.
Ltac ex_maps := repeat constructor; cbn; intuition discriminate.

(** the hypotheses of C76_starts and C76_files hold for a real task *)
Example C76_example : exists p s',
  starts ex_atoi ex_host (new_shell [] "" "") "/tmp/tork1" ex_fs ex_shell p s' /\
  is_map (t_files ex_shell) /\ is_map (t_env ex_shell) /\
  (forall n v, In (n, v) (t_env ex_shell) -> no_equals n) /\
  (forall n c, In (n, c) (t_files ex_shell) -> plain_name n /\ ~ In n reserved) /\
  sp_argv p = ["bash"; "-c"; "/tmp/tork1/entrypoint"] /\ sp_env p "A" = Some "1" /\ sp_env p "TORK_SECRET" = None /\
  fs_files s' ["tmp"; "tork1"; "data.txt"] = Some (292, "x").
Proof.
  destruct (start_of ex_host (new_shell [] "" "") ex_shell) as [[p s']|] eqn:E; [|vm_compute in E; discriminate].
  exists p, s'. split; [exact (start_of_starts _ _ _ _ _ E)|]. vm_compute in E. injection E as <- <-.
  split; [ex_maps|]. split; [ex_maps|].
  split; [intros n v [H|[H|[]]]; injection H as <- <-; unfold no_equals; cbn; intuition discriminate|].
  split; [|split; [reflexivity|]; split; [reflexivity|]; split; reflexivity].
  intros n c [H|[H|[]]]; injection H as <- <-; (split; [|cbn; intuition discriminate]);
    (split; [discriminate|]; split; [discriminate|]; split; [discriminate|]; cbn; intuition discriminate).
Qed.
(** a worker of root can use a configured user 0 or none, an ordinary worker its own *)
Example C76_identity_example : exists p s',
  starts ex_atoi ex_host (new_shell [] "1000" "1000") "/tmp/tork1" ex_fs ex_shell p s' /\ c_euid (sp_cred p) = 1000.
Proof.
  destruct (start_of ex_host (new_shell [] "1000" "1000") ex_shell) as [[p s']|] eqn:E; [|vm_compute in E; discriminate].
  exists p, s'. split; [exact (start_of_starts _ _ _ _ _ E)|]. vm_compute in E. injection E as <- <-. reflexivity.
Qed.
(** even a worker of root cannot run a script as user 33 *)
Example C76_other_user_example : forall t p s', ~ starts ex_atoi root_host (new_shell [] "33" "") "/tmp/tork1" ex_fs t p s'.
Proof. intros t p s'. apply (C76_other_user_never_runs ex_atoi root_host "33" "" [] "/tmp/tork1" ex_fs t p s' 33); discriminate || reflexivity. Qed.
Example C76_subdirectory_example : forall p s',
  ~ starts ex_atoi ex_host (new_shell [] "" "") "/tmp/tork1" ex_fs (ex_shell <| t_files := [("src/a.c", "int x;")] |>) p s'.
Proof. intros p s'. apply (C76_subdirectory_fails _ _ _ _ _ _ _ _ "src/a.c" "int x;"); [left; reflexivity|discriminate|reflexivity]. Qed.

(** C76 is false for file names that leave the directory: the file is written outside and stays there. *)
Theorem C76_escape_refuted : exists t p s1 e r s',
  starts ex_atoi ex_host (new_shell [] "" "") "/tmp/tork1" ex_fs t p s1 /\ shell_end "/tmp/tork1" e s1 = (r, s') /\
  fs_files ex_fs ["tmp"; "x"] = None /\ fs_files s' ["tmp"; "x"] = Some (292, "owned").
Proof.
  pose (t := ex_shell <| t_files := [("../x", "owned")] |>). exists t.
  destruct (start_of ex_host (new_shell [] "" "") t) as [[p s1]|] eqn:E; [|vm_compute in E; discriminate].
  exists p, s1, (EDone 0). destruct (shell_end "/tmp/tork1" (EDone 0) s1) as [r s'] eqn:E'. exists r, s'.
  split; [exact (start_of_starts _ _ _ _ _ E)|]. split; [reflexivity|]. split; [reflexivity|].
  vm_compute in E. injection E as <- <-. vm_compute in E'. injection E' as <- <-. reflexivity.
Qed.
Print Assumptions C76_escape_refuted.
(** a task's own PATH is not what its script gets *)
Theorem C76_own_path_refuted : exists p s',
  starts ex_atoi ex_host (new_shell [] "" "") "/tmp/tork1" ex_fs ex_shell p s' /\
  mget (t_env ex_shell) "PATH" = Some "/opt/bin" /\ sp_env p "PATH" = Some "/usr/bin".
Proof.
  destruct (start_of ex_host (new_shell [] "" "") ex_shell) as [[p s']|] eqn:E; [|vm_compute in E; discriminate].
  exists p, s'. split; [exact (start_of_starts _ _ _ _ _ E)|]. vm_compute in E. injection E as <- <-. split; reflexivity.
Qed.
Print Assumptions C76_own_path_refuted.
(** a file of the task named like the script is replaced by it (or makes the task fail, for an ordinary worker) *)
Theorem C76_reserved_refuted : exists t p s',
  starts ex_atoi root_host (new_shell [] "" "") "/tmp/tork1" ex_fs t p s' /\ In ("entrypoint", "mine") (t_files t) /\
  fs_files s' ["tmp"; "tork1"; "entrypoint"] = Some (292, t_run t).
Proof.
  pose (t := ex_shell <| t_files := [("entrypoint", "mine")] |>). exists t.
  destruct (start_of root_host (new_shell [] "" "") t) as [[p s1]|] eqn:E; [|vm_compute in E; discriminate].
  exists p, s1. split; [exact (start_of_starts _ _ _ _ _ E)|]. split; [left; reflexivity|].
  vm_compute in E. injection E as <- <-. reflexivity.
Qed.
Print Assumptions C76_reserved_refuted.
(** a file named "stdout" is the result of a task that writes none *)
Theorem C76_result_file_refuted : exists t p s',
  starts ex_atoi ex_host (new_shell [] "" "") "/tmp/tork1" ex_fs t p s' /\ fst (shell_end "/tmp/tork1" (EDone 0) s') = inr "mine".
Proof.
  pose (t := ex_shell <| t_files := [("stdout", "mine")] |>). exists t.
  destruct (start_of ex_host (new_shell [] "" "") t) as [[p s1]|] eqn:E; [|vm_compute in E; discriminate].
  exists p, s1. split; [exact (start_of_starts _ _ _ _ _ E)|].
  vm_compute in E. injection E as <- <-. reflexivity.
Qed.
Print Assumptions C76_result_file_refuted.

(** A cancelled task's script keeps running: the process that is killed is not the script's, and nothing but the script's own
    end stops it. *)
Theorem C76_cancel_refuted : exists a, pstep (mkProcs true true) a /\ pc_reexec a = false /\ pc_script a = true /\
  forall b, pstep a b -> pc_script b = false /\ exists r, a = mkProcs r true.
Proof.
  exists (mkProcs false true). split; [constructor|]. split; [reflexivity|]. split; [reflexivity|].
  intros b H. inversion H; subst. split; [reflexivity|]. exists false. reflexivity.
Qed.
Print Assumptions C76_cancel_refuted.
