(** C77: what a task runs with the podman runtime.  runtime/podman/podman.go:163-345 (doRun), 347-359 (stop), 402-462
    (imagePull, doPullRequest, imageExistsLocally).  The order of pre, main and post tasks and the refusals are in Runtime.v.
    Simplifications: paths are resolved lexically (no symbolic links), the worker may write to every existing directory;
    the image is checked in the calling process (the queue of pulls of docker is in Images.v); progress is not modelled. *)
From Coq Require Import Permutation Ascii.
From Verif Require Import Types Runtime Container ShellRun.
Open Scope string_scope.
Open Scope list_scope.
Open Scope Z_scope.

(* ------------------------------------------------------------------ *)
(** * Model *)
(** podman.go:35-43: the two settings of the node *)
Record pcfg := mkPcfg { pd_privileged : bool; pd_hostnet : bool }.

(** os.MkdirAll: fails if a file is in the way *)
Definition prefixes (d : path) : list path := map (fun n => firstn n d) (seq 0 (S (List.length d))).
Definition mkdir_all (s : fsys) (d : path) : option fsys :=
  if existsb (fun p => match fs_files s p with Some _ => true | None => false end) (prefixes d) then None
  else Some (mkFs (fun q => below q d || fs_dirs s q) (fs_files s)).
(** os.Create, then os.Chmod to 0777.  podman.go:175-189 *)
Definition create_777 (root : bool) (um : Z) (s : fsys) (p : path) : option fsys :=
  match write_file root um s p 438 "" with                                   (* 0666 *)
  | None => None
  | Some s' => Some (mkFs (fs_dirs s') (fun q => if path_eqb q p then Some (511, "") else fs_files s' q))   (* 0777 *)
  end.
Fixpoint join (sep : string) (l : list string) : string :=
  match l with [] => "" | [x] => x | x :: l => (x ++ sep ++ join sep l)%string end.
(** podman.go:190-201 *)
Definition script_of (t : task) : string := if String.eqb (t_run t) "" then join " " (t_cmd t) else t_run t.
(** podman.go:164-201; [d]: the directory *)
Definition pod_prepare (h : host) (s : fsys) (d : path) (t : task) : option fsys :=
  match mkdir_all s d with
  | None => None
  | Some s0 =>
  match create_777 (root_of h) (h_umask h) s0 (d ++ ["output"]) with
  | None => None
  | Some s1 =>
  match create_777 (root_of h) (h_umask h) s1 (d ++ ["progress"]) with
  | None => None
  | Some s2 => write_file (root_of h) (h_umask h) s2 (d ++ ["entrypoint.sh"]) 493 (script_of t)      (* 0755 *)
  end end end.

(** podman.go:211-213 *)
Definition pod_entrypoint (t : task) : list string := match t_entrypoint t with [] => ["sh"] | e => e end.
(** podman.go:220-229; [order]: the order in which the map is walked *)
Definition env_args (order : smap) : list string :=
  flat_map (fun ev => ["-e"; ev])
    (map (fun p => (fst p ++ "=" ++ snd p)%string) order ++ ["TORK_OUTPUT=/tork/output"; "TORK_PROGRESS=/tork/progress"]).
(** podman.go:231-244 *)
Fixpoint net_args (slug : string) (hostnet : bool) (l : list string) : string + list string :=
  match l with
  | [] => inr []
  | n :: l =>
      if String.eqb n "host" && negb hostnet then inl "host networking is not enabled"
      else match net_args slug hostnet l with
           | inl e => inl e
           | inr r => inr ((if String.eqb n "host" then ["--network"; n] else ["--network"; n; "--network-alias"; slug]) ++ r)
           end
  end.
(** podman.go:246-256 *)
Fixpoint mount_args (ms : list mount) : string + list string :=
  match ms with
  | [] => inr []
  | m :: ms =>
      if String.eqb (m_type m) "volume" || String.eqb (m_type m) "bind"
      then match mount_args ms with inl e => inl e | inr r => inr (["-v"; (m_source m ++ ":" ++ m_target m)%string] ++ r) end
      else inl ("unknown mount type: " ++ m_type m)%string
  end.
(** podman.go:262-267 *)
Definition workdir_args (t : task) : list string :=
  if negb (String.eqb (t_workdir t) "") then ["-w"; t_workdir t]
  else match t_files t with [] => [] | _ => ["-w"; "/tork/workdir"] end.
(** podman.go:268-275; path.Join cleans the path *)
Fixpoint pod_files (root : bool) (um : Z) (s : fsys) (d : path) (order : smap) : option fsys :=
  match order with
  | [] => Some s
  | (n, c) :: order =>
      match mkdir_all s (d ++ ["workdir"]) with
      | None => None
      | Some s1 => match write_file root um s1 (at_ (d ++ ["workdir"]) n) 292 c with                  (* 0444 *)
                   | None => None
                   | Some s2 => pod_files root um s2 d order
                   end
      end
  end.
(** podman.go:214-285: the arguments that follow "podman create"; [w]: the text of the directory *)
Definition create_args (cfg : pcfg) (w : string) (envs : smap) (t : task) (nets mounts : list string) : list string :=
  ["-v"; (w ++ ":/tork")%string; "--entrypoint"; hd "" (pod_entrypoint t)] ++ env_args envs ++ nets ++ mounts ++ workdir_args t ++
  (if pd_privileged cfg then ["--privileged"] else []) ++ [t_image t] ++ tl (pod_entrypoint t) ++ ["/tork/entrypoint.sh"].

(** the commands run; the files of the machine are recorded with "podman create" *)
Inductive pcmd := PcInspectImage (image : string) | PcPull (image : string) | PcCreate (args : list string) (files : fsys)
  | PcStart (id : string) | PcLogs (id : string) | PcInspect (id : string) | PcRemove (id : string).
(** how the commands answer: success (the trimmed output where it is read), and what is done to the files of the machine
    until the end of the container's log *)
Record answers := mkAnswers { an_has : bool; an_pull : bool; an_create : option string; an_start : bool; an_logs : bool;
  an_exit : option string; an_work : fsys -> fsys }.

Section Podman.
Variable slug : string -> string.
(** podman.go:287-345: from "podman create" on: the result and the commands, without the deferred ones *)
Definition pod_wait (a : answers) (d : path) (id : string) (s : fsys) : (string + string) * list pcmd * fsys :=
  if negb (an_start a) then (inl "failed to start container", [PcStart id], s)
  else let s' := an_work a s in
       if negb (an_logs a) then (inl "failed to read logs", [PcStart id; PcLogs id], s')
       else match an_exit a with
            | None => (inl "failed to inspect container", [PcStart id; PcLogs id; PcInspect id], s')
            | Some code =>
                ((if String.eqb code "0"
                  then match fs_files s' (d ++ ["output"]) with Some (_, o) => inr o | None => inl "failed to read stdout" end
                  else inl ("container exited with code " ++ code)%string),
                 [PcStart id; PcLogs id; PcInspect id], s')
            end.
(** podman.go:203-285 with 347-359 (the deferred removal of the container) *)
Definition pod_container (h : host) (cfg : pcfg) (a : answers) (w : string) (envs fls : smap) (t : task) (s : fsys)
    : (string + string) * list pcmd * fsys :=
  let pulled := if an_has a then [PcInspectImage (t_image t)] else [PcInspectImage (t_image t); PcPull (t_image t)] in
  if negb (an_has a) && negb (an_pull a) then (inl "error pulling image", pulled, s)
  else match net_args (slug (t_name t)) (pd_hostnet cfg) (t_networks t) with
       | inl e => (inl e, pulled, s)
       | inr nets =>
       match mount_args (t_mounts t) with
       | inl e => (inl e, pulled, s)
       | inr mounts =>
       match pod_files (root_of h) (h_umask h) s (abs w) fls with
       | None => (inl "error writing the files", pulled, s)
       | Some s1 =>
           let create := PcCreate (create_args cfg w envs t nets mounts) s1 in
           match an_create a with
           | None => (inl "failed to create container", pulled ++ [create], s1)
           | Some id =>
               if String.eqb id "" then (inl "failed to retrieve container ID", pulled ++ [create], s1)
               else let '(r, cmds, s2) := pod_wait a (abs w) id s1 in
                    (r, pulled ++ [create] ++ cmds ++ [PcRemove id], s2)
           end
       end end end.
(** podman.go:163-173: the directory is removed in any case *)
Definition pod_run (h : host) (cfg : pcfg) (a : answers) (w : string) (s : fsys) (envs fls : smap) (t : task)
    : (string + string) * list pcmd * fsys :=
  match pod_prepare h s (abs w) t with
  | None => (inl "error preparing the directory", [], remove_dir s (abs w))
  | Some s1 => let '(r, cmds, s2) := pod_container h cfg a w envs fls t s1 in (r, cmds, remove_dir s2 (abs w))
  end.
End Podman.

(* ------------------------------------------------------------------ *)
(** * What "podman create" makes of its arguments (podman-create(1): options end at the first other argument, the image) *)
Record popts := mkPopts { po_volumes : list string; po_entrypoint : option string; po_env : list string;
  po_networks : list string; po_aliases : list string; po_workdir : option string; po_privileged : bool;
  po_image : string; po_command : list string }.
Definition no_opts : popts := mkPopts [] None [] [] [] None false "" [].
Definition value_option (o : popts) (f v : string) : option popts :=
  if String.eqb f "-v" then Some (mkPopts (po_volumes o ++ [v]) (po_entrypoint o) (po_env o) (po_networks o) (po_aliases o)
                                    (po_workdir o) (po_privileged o) (po_image o) (po_command o))
  else if String.eqb f "--entrypoint" then Some (mkPopts (po_volumes o) (Some v) (po_env o) (po_networks o) (po_aliases o)
                                    (po_workdir o) (po_privileged o) (po_image o) (po_command o))
  else if String.eqb f "-e" then Some (mkPopts (po_volumes o) (po_entrypoint o) (po_env o ++ [v]) (po_networks o) (po_aliases o)
                                    (po_workdir o) (po_privileged o) (po_image o) (po_command o))
  else if String.eqb f "--network" then Some (mkPopts (po_volumes o) (po_entrypoint o) (po_env o) (po_networks o ++ [v]) (po_aliases o)
                                    (po_workdir o) (po_privileged o) (po_image o) (po_command o))
  else if String.eqb f "--network-alias" then Some (mkPopts (po_volumes o) (po_entrypoint o) (po_env o) (po_networks o) (po_aliases o ++ [v])
                                    (po_workdir o) (po_privileged o) (po_image o) (po_command o))
  else if String.eqb f "-w" then Some (mkPopts (po_volumes o) (po_entrypoint o) (po_env o) (po_networks o) (po_aliases o)
                                    (Some v) (po_privileged o) (po_image o) (po_command o))
  else if String.eqb f "-l" then Some o                                     (* --label *)
  else None.
Fixpoint podman_create (o : popts) (args : list string) : option popts :=
  match args with
  | [] => None
  | a :: rest =>
      if String.prefix "-" a
      then if String.eqb a "--privileged"
           then podman_create (mkPopts (po_volumes o) (po_entrypoint o) (po_env o) (po_networks o) (po_aliases o) (po_workdir o)
                                 true (po_image o) (po_command o)) rest
           else match rest with
                | [] => None
                | v :: rest => match value_option o a v with Some o' => podman_create o' rest | None => None end
                end
      else Some (mkPopts (po_volumes o) (po_entrypoint o) (po_env o) (po_networks o) (po_aliases o) (po_workdir o) (po_privileged o)
                   a rest)
  end.

(** the command line in the container.  [json]: --entrypoint may be a JSON list *)
Definition pod_argv (json : string -> option (list string)) (im : image) (o : popts) : list string :=
  match po_entrypoint o with
  | None => im_entrypoint im ++ (match po_command o with [] => im_cmd im | c => c end)
  | Some e => match json e with
              | Some l => l ++ po_command o
              | None => if String.eqb e "" then po_command o else e :: po_command o
              end
  end.
Definition pod_env (im : image) (o : popts) (k : string) : option string := assigned (po_env o) k (image_env im k).
Definition pod_cwd (im : image) (o : popts) : string := match po_workdir o with Some w => w | None => im_workdir im end.
(** "source:target[:options]" *)
Fixpoint split_at (c : ascii) (s : string) : list string :=
  match s with
  | EmptyString => [""]
  | String a s' => if Ascii.eqb a c then "" :: split_at c s'
                   else match split_at c s' with x :: l => String a x :: l | [] => [String a ""] end
  end.
Definition volume (s : string) : option (string * string) :=
  match split_at ":" s with src :: dst :: _ => Some (src, dst) | _ => None end.
(** the files of the machine shown in the container: of the volumes whose target is above [q], the deepest *)
Definition deeper (q : path) (best : option (path * path)) (v : string) : option (path * path) :=
  match volume v with
  | None => best
  | Some (src, dst) =>
      if below (abs dst) q
      then match best with
           | Some (_, d) => if Nat.ltb (List.length d) (List.length (abs dst)) then Some (abs src, abs dst) else best
           | None => Some (abs src, abs dst)
           end
      else best
  end.
Definition pod_file (o : popts) (s : fsys) (q : path) : option file :=
  match fold_left (deeper q) (po_volumes o) None with
  | Some (src, dst) => fs_files s (src ++ skipn (List.length dst) q)
  | None => None
  end.

(* ------------------------------------------------------------------ *)
(** * Specification *)
(** one run of a task: the result, the commands, the files afterwards *)
Definition pod_runs (slug : string -> string) (h : host) (cfg : pcfg) (a : answers) (w : string) (s : fsys) (t : task)
    (r : string + string) (cmds : list pcmd) (s' : fsys) : Prop :=
  exists envs fls, walk_of envs (t_env t) /\ walk_of fls (t_files t) /\ pod_run slug h cfg a w s envs fls t = (r, cmds, s').
(** nothing is in the directory before *)
Definition unused (s : fsys) (d : path) : Prop := forall q, below d q = true -> fs_dirs s q = false /\ fs_files s q = None.
Definition no_colon (s : string) : Prop := ~ In ":"%char (list_ascii_of_string s).
Definition no_dash (s : string) : Prop := String.prefix "-" s = false.

(* ------------------------------------------------------------------ *)
(** * Proofs *)
Lemma pod_runs_inv slug h cfg a w s t r cmds s' args s1 : pod_runs slug h cfg a w s t r cmds s' -> In (PcCreate args s1) cmds ->
  exists envs fls nets mounts s0, Permutation envs (t_env t) /\ Permutation fls (t_files t) /\
    net_args (slug (t_name t)) (pd_hostnet cfg) (t_networks t) = inr nets /\ mount_args (t_mounts t) = inr mounts /\
    pod_prepare h s (abs w) t = Some s0 /\ pod_files (root_of h) (h_umask h) s0 (abs w) fls = Some s1 /\
    args = create_args cfg w envs t nets mounts.
Proof.
  intros (envs & fls & He & Hf & H) Hin. unfold pod_run in H.
  destruct (pod_prepare h s (abs w) t) as [s0|] eqn:Ep; [|injection H as <- <- <-; contradiction].
  destruct (pod_container slug h cfg a w envs fls t s0) as [[r1 c1] s2] eqn:E. injection H as <- <- <-.
  unfold pod_container in E.
  set (pulled := if an_has a then [PcInspectImage (t_image t)] else [PcInspectImage (t_image t); PcPull (t_image t)]) in E.
  assert (Hpull : ~ In (PcCreate args s1) pulled).
  { unfold pulled. destruct (an_has a); cbn; intuition discriminate. }
  destruct (negb (an_has a) && negb (an_pull a)); [injection E as <- <- <-; contradiction|].
  destruct (net_args (slug (t_name t)) (pd_hostnet cfg) (t_networks t)) as [e|nets] eqn:En; [injection E as <- <- <-; contradiction|].
  destruct (mount_args (t_mounts t)) as [e|mounts] eqn:Em; [injection E as <- <- <-; contradiction|].
  destruct (pod_files (root_of h) (h_umask h) s0 (abs w) fls) as [s3|] eqn:Ef; [|injection E as <- <- <-; contradiction].
  assert (G : args = create_args cfg w envs t nets mounts /\ s1 = s3).
  { destruct (an_create a) as [id|].
    - destruct (String.eqb id "").
      + injection E as <- <- <-. apply in_app_or in Hin as [Hin|[Hin|[]]]; [contradiction|]. injection Hin as <- <-. split; reflexivity.
      + destruct (pod_wait a (abs w) id s3) as [[r2 c2] s4] eqn:Ew. injection E as <- <- <-.
        apply in_app_or in Hin as [Hin|Hin]; [contradiction|].
        cbn [app] in Hin. destruct Hin as [Hin|Hin]; [injection Hin as <- <-; split; reflexivity|].
        exfalso. apply in_app_or in Hin as [Hin|[Hin|[]]]; [|discriminate].
        unfold pod_wait in Ew. destruct (negb (an_start a)); [injection Ew as <- <- <-; cbn in Hin; intuition discriminate|].
        destruct (negb (an_logs a)); [injection Ew as <- <- <-; cbn in Hin; intuition discriminate|].
        destruct (an_exit a); injection Ew as <- <- <-; cbn in Hin; intuition discriminate.
    - injection E as <- <- <-. apply in_app_or in Hin as [Hin|[Hin|[]]]; [contradiction|]. injection Hin as <- <-. split; reflexivity. }
  destruct G as (-> & ->). exists envs, fls, nets, mounts, s0. auto 10.
Qed.

(** parsing of the arguments, part by part *)
Lemma parse_env o order rest : podman_create o (env_args order ++ rest) =
  podman_create (mkPopts (po_volumes o) (po_entrypoint o)
    (po_env o ++ map (fun p => (fst p ++ "=" ++ snd p)%string) order ++ ["TORK_OUTPUT=/tork/output"; "TORK_PROGRESS=/tork/progress"])
    (po_networks o) (po_aliases o) (po_workdir o) (po_privileged o) (po_image o) (po_command o)) rest.
Proof.
  unfold env_args. generalize (map (fun p => (fst p ++ "=" ++ snd p)%string) order ++ ["TORK_OUTPUT=/tork/output"; "TORK_PROGRESS=/tork/progress"]).
  intros l. revert o. induction l as [|x l IH]; intros o; cbn [flat_map app].
  - rewrite app_nil_r. destruct o; reflexivity.
  - cbn [podman_create String.prefix]. change (String.prefix "-" "-e") with true. change (String.eqb "-e" "--privileged") with false.
    change (value_option o "-e" x) with (Some (mkPopts (po_volumes o) (po_entrypoint o) (po_env o ++ [x]) (po_networks o) (po_aliases o)
                                    (po_workdir o) (po_privileged o) (po_image o) (po_command o))). cbv iota.
    rewrite IH. cbn [po_volumes po_entrypoint po_env po_networks po_aliases po_workdir po_privileged po_image po_command].
    rewrite <- app_assoc. reflexivity.
Qed.
Lemma parse_nets slug hostnet l : forall nets o rest, net_args slug hostnet l = inr nets ->
  podman_create o (nets ++ rest) =
  podman_create (mkPopts (po_volumes o) (po_entrypoint o) (po_env o) (po_networks o ++ l)
    (po_aliases o ++ map (fun _ => slug) (filter (fun n => negb (String.eqb n "host")) l))
    (po_workdir o) (po_privileged o) (po_image o) (po_command o)) rest.
Proof.
  induction l as [|n l IH]; intros nets o rest H; cbn [net_args] in H.
  - injection H as <-. cbn. rewrite !app_nil_r. destruct o; reflexivity.
  - destruct (String.eqb n "host" && negb hostnet); [discriminate|].
    destruct (net_args slug hostnet l) as [e|r]; [discriminate|]. injection H as <-.
    cbn [filter]. destruct (String.eqb n "host"); cbn [negb].
    + cbn [app podman_create]. change (String.prefix "-" "--network") with true. change (String.eqb "--network" "--privileged") with false.
      cbv iota. change (value_option o "--network" n) with (Some (mkPopts (po_volumes o) (po_entrypoint o) (po_env o) (po_networks o ++ [n]) (po_aliases o)
                                    (po_workdir o) (po_privileged o) (po_image o) (po_command o))). cbv iota.
      rewrite (IH r _ rest eq_refl).
      cbn [po_volumes po_entrypoint po_env po_networks po_aliases po_workdir po_privileged po_image po_command].
      rewrite <- app_assoc. reflexivity.
    + cbn [app podman_create]. change (String.prefix "-" "--network") with true. change (String.eqb "--network" "--privileged") with false.
      cbv iota. change (value_option o "--network" n) with (Some (mkPopts (po_volumes o) (po_entrypoint o) (po_env o) (po_networks o ++ [n]) (po_aliases o)
                                    (po_workdir o) (po_privileged o) (po_image o) (po_command o))). cbv iota.
      change (String.prefix "-" "--network-alias") with true. change (String.eqb "--network-alias" "--privileged") with false.
      cbv iota. match goal with |- context [value_option ?o' "--network-alias" slug] =>
        change (value_option o' "--network-alias" slug) with (Some (mkPopts (po_volumes o') (po_entrypoint o') (po_env o') (po_networks o')
          (po_aliases o' ++ [slug]) (po_workdir o') (po_privileged o') (po_image o') (po_command o'))) end. cbv iota.
      rewrite (IH r _ rest eq_refl).
      cbn [po_volumes po_entrypoint po_env po_networks po_aliases po_workdir po_privileged po_image po_command map].
      rewrite <- !app_assoc. reflexivity.
Qed.
Lemma parse_mounts ms : forall mounts o rest, mount_args ms = inr mounts ->
  podman_create o (mounts ++ rest) =
  podman_create (mkPopts (po_volumes o ++ map (fun m => (m_source m ++ ":" ++ m_target m)%string) ms) (po_entrypoint o) (po_env o) (po_networks o)
    (po_aliases o) (po_workdir o) (po_privileged o) (po_image o) (po_command o)) rest.
Proof.
  induction ms as [|m ms IH]; intros mounts o rest H; cbn [mount_args] in H.
  - injection H as <-. cbn. rewrite !app_nil_r. destruct o; reflexivity.
  - destruct (String.eqb (m_type m) "volume" || String.eqb (m_type m) "bind"); [|discriminate].
    destruct (mount_args ms) as [e|r]; [discriminate|]. injection H as <-.
    cbn [app podman_create]. change (String.prefix "-" "-v") with true. change (String.eqb "-v" "--privileged") with false. cbv iota.
    change (value_option o "-v" ?v) with (Some (mkPopts (po_volumes o ++ [v]) (po_entrypoint o) (po_env o) (po_networks o) (po_aliases o)
                                    (po_workdir o) (po_privileged o) (po_image o) (po_command o))). cbv iota.
    rewrite (IH r _ rest eq_refl).
    cbn [po_volumes po_entrypoint po_env po_networks po_aliases po_workdir po_privileged po_image po_command map].
    rewrite <- app_assoc. reflexivity.
Qed.

(** C77: podman gets exactly what the task says: its entrypoint and image, its variables, networks, mounts and directory,
    and privileges only from the node's setting. *)
Theorem C77_arguments : forall slug h cfg a w s t r cmds s' args s1,
  pod_runs slug h cfg a w s t r cmds s' -> In (PcCreate args s1) cmds -> no_dash (t_image t) ->
  exists o, podman_create no_opts args = Some o /\
    po_image o = t_image t /\ po_privileged o = pd_privileged cfg /\ po_networks o = t_networks t /\
    po_volumes o = (w ++ ":/tork")%string :: map (fun m => (m_source m ++ ":" ++ m_target m)%string) (t_mounts t) /\
    po_workdir o = (if negb (String.eqb (t_workdir t) "") then Some (t_workdir t)
                    else match t_files t with [] => None | _ => Some "/tork/workdir" end) /\
    (exists e args', pod_entrypoint t = e :: args' /\ po_entrypoint o = Some e /\ po_command o = args' ++ ["/tork/entrypoint.sh"]) /\
    (exists envs, Permutation envs (t_env t) /\ po_env o = map (fun p => (fst p ++ "=" ++ snd p)%string) envs ++
                                                          ["TORK_OUTPUT=/tork/output"; "TORK_PROGRESS=/tork/progress"]) /\
    (forall m, In m (t_mounts t) -> m_type m = "volume" \/ m_type m = "bind").
Proof.
  intros slug h cfg a w s t r cmds s' args s1 H Hin Hd.
  destruct (pod_runs_inv _ _ _ _ _ _ _ _ _ _ _ _ H Hin) as (envs & fls & nets & mounts & s0 & He & Hf & Hn & Hm & _ & _ & ->).
  assert (Hmt : forall m, In m (t_mounts t) -> m_type m = "volume" \/ m_type m = "bind").
  { clear -Hm. revert mounts Hm. induction (t_mounts t) as [|m ms IH]; intros mounts Hm m' Hin; [contradiction|]. cbn [mount_args] in Hm.
    destruct (String.eqb_spec (m_type m) "volume") as [E|E]; destruct (String.eqb_spec (m_type m) "bind") as [E'|E']; cbn [orb] in Hm;
      try discriminate; (destruct (mount_args ms) as [e|r] eqn:Er; [discriminate|]);
      (destruct Hin as [<-|Hin]; [auto|exact (IH _ eq_refl _ Hin)]). }
  destruct (pod_entrypoint t) as [|e args'] eqn:Ee; [exfalso; revert Ee; unfold pod_entrypoint; destruct (t_entrypoint t); discriminate|].
  unfold create_args. rewrite Ee. cbn [hd tl].
  cbn [app]. cbn [podman_create]. change (String.prefix "-" "-v") with true. change (String.eqb "-v" "--privileged") with false. cbv iota.
  change (value_option no_opts "-v" (w ++ ":/tork")) with (Some (mkPopts [(w ++ ":/tork")%string] None [] [] [] None false "" [])). cbv iota.
  change (String.prefix "-" "--entrypoint") with true. change (String.eqb "--entrypoint" "--privileged") with false. cbv iota.
  change (value_option (mkPopts [(w ++ ":/tork")%string] None [] [] [] None false "" []) "--entrypoint" e)
    with (Some (mkPopts [(w ++ ":/tork")%string] (Some e) [] [] [] None false "" [])). cbv iota.
  rewrite parse_env, (parse_nets _ _ _ _ _ _ Hn), (parse_mounts _ _ _ _ Hm).
  cbn [po_volumes po_entrypoint po_env po_networks po_aliases po_workdir po_privileged po_image po_command app].
  set (al := map (fun _ => slug (t_name t)) _). set (vs := (w ++ ":/tork")%string :: _). set (ev := map _ envs ++ _).
  set (wd := if negb (String.eqb (t_workdir t) "") then Some (t_workdir t) else match t_files t with [] => None | _ => Some "/tork/workdir" end).
  assert (W : forall rest, podman_create (mkPopts vs (Some e) ev (t_networks t) al None false "" []) (workdir_args t ++ rest) =
                           podman_create (mkPopts vs (Some e) ev (t_networks t) al wd false "" []) rest).
  { intros rest. unfold workdir_args, wd. destruct (negb (String.eqb (t_workdir t) "")); [reflexivity|].
    destruct (t_files t); reflexivity. }
  rewrite W.
  assert (P : forall rest, podman_create (mkPopts vs (Some e) ev (t_networks t) al wd false "" [])
                ((if pd_privileged cfg then ["--privileged"] else []) ++ rest) =
              podman_create (mkPopts vs (Some e) ev (t_networks t) al wd (pd_privileged cfg) "" []) rest).
  { intros rest. destruct (pd_privileged cfg); reflexivity. }
  rewrite P. cbn [app podman_create].
  rewrite Hd. eexists. split; [reflexivity|].
  cbn [po_volumes po_entrypoint po_env po_networks po_aliases po_workdir po_privileged po_image po_command].
  split; [reflexivity|]. split; [reflexivity|]. split; [reflexivity|]. split; [reflexivity|]. split; [reflexivity|].
  split; [exists e, args'; auto|]. split; [exists envs; auto|exact Hmt].
Qed.
Print Assumptions C77_arguments.

(** C77: the command line of the process in the container: the task's entrypoint ("sh" if it has none) and the script. *)
Theorem C77_command : forall slug h cfg a w s t r cmds s' args s1 json im,
  pod_runs slug h cfg a w s t r cmds s' -> In (PcCreate args s1) cmds -> no_dash (t_image t) ->
  hd "" (pod_entrypoint t) <> "" -> json (hd "" (pod_entrypoint t)) = None ->
  exists o, podman_create no_opts args = Some o /\
    pod_argv json im o = (match t_entrypoint t with [] => ["sh"] | e => e end) ++ ["/tork/entrypoint.sh"] /\
    pod_cwd im o = (if negb (String.eqb (t_workdir t) "") then t_workdir t
                    else match t_files t with [] => im_workdir im | _ => "/tork/workdir" end).
Proof.
  intros slug h cfg a w s t r cmds s' args s1 json im H Hin Hd Hne Hj.
  destruct (C77_arguments _ _ _ _ _ _ _ _ _ _ _ _ H Hin Hd) as (o & Ho & _ & _ & _ & _ & Hw & (e & args' & Ee & Eo & Ec) & _).
  exists o. split; [exact Ho|]. rewrite Ee in Hne, Hj. cbn [hd] in Hne, Hj. split.
  - unfold pod_argv. rewrite Eo, Hj, (proj2 (String.eqb_neq _ _) Hne), Ec. fold (pod_entrypoint t). rewrite Ee. reflexivity.
  - unfold pod_cwd. rewrite Hw. destruct (negb (String.eqb (t_workdir t) "")); [reflexivity|]. destruct (t_files t); reflexivity.
Qed.
Print Assumptions C77_command.

(** C77: its environment: the places of result and progress, then the task's variables, then the image's. *)
Theorem C77_environment : forall slug h cfg a w s t r cmds s' args s1 im k,
  pod_runs slug h cfg a w s t r cmds s' -> In (PcCreate args s1) cmds -> no_dash (t_image t) ->
  is_map (t_env t) -> (forall n v, In (n, v) (t_env t) -> no_equals n) ->
  exists o, podman_create no_opts args = Some o /\
    pod_env im o k = if String.eqb k "TORK_OUTPUT" then Some "/tork/output"
                     else if String.eqb k "TORK_PROGRESS" then Some "/tork/progress"
                     else match mget (t_env t) k with Some v => Some v | None => image_env im k end.
Proof.
  intros slug h cfg a w s t r cmds s' args s1 im k H Hin Hd Hm Hn.
  destruct (C77_arguments _ _ _ _ _ _ _ _ _ _ _ _ H Hin Hd) as (o & Ho & _ & _ & _ & _ & _ & _ & (envs & He & Ev) & _).
  exists o. split; [exact Ho|]. unfold pod_env. rewrite Ev, assigned_app.
  assert (Hn' : forall n v, In (n, v) envs -> no_equals n) by (intros n v Hi; exact (Hn n v (Permutation_in _ He Hi))).
  assert (Hm' : is_map envs) by exact (Permutation_NoDup (Permutation_map fst (Permutation_sym He)) Hm).
  rewrite (assigned_map envs k _ Hm' Hn'), (mget_perm envs (t_env t) k He Hm).
  change ["TORK_OUTPUT=/tork/output"; "TORK_PROGRESS=/tork/progress"]
    with [("TORK_OUTPUT" ++ "=" ++ "/tork/output")%string; ("TORK_PROGRESS" ++ "=" ++ "/tork/progress")%string].
  rewrite (assigned_pair "TORK_OUTPUT" "/tork/output") by (unfold no_equals; cbn; intuition discriminate).
  rewrite (assigned_pair "TORK_PROGRESS" "/tork/progress") by (unfold no_equals; cbn; intuition discriminate).
  cbn [assigned fold_left]. rewrite !(String.eqb_sym _ k).
  destruct (String.eqb_spec k "TORK_OUTPUT") as [->|]; [reflexivity|].
  destruct (String.eqb_spec k "TORK_PROGRESS") as [->|]; reflexivity.
Qed.
Print Assumptions C77_environment.

Lemma mkdir_all_files s d s' : mkdir_all s d = Some s' -> fs_files s' = fs_files s.
Proof. unfold mkdir_all. destruct (existsb _ _); [discriminate|]. intros H. injection H as <-. reflexivity. Qed.
Lemma create_777_at root um s p s' : create_777 root um s p = Some s' ->
  fs_files s' p = Some (511, "") /\ forall q, q <> p -> fs_files s' q = fs_files s q.
Proof.
  unfold create_777. destruct (write_file root um s p 438 "") as [s1|] eqn:E; [|discriminate]. intros H. injection H as <-.
  cbn [fs_files]. rewrite path_eqb_refl. split; [reflexivity|]. intros q Hq. rewrite path_eqb_false by exact Hq.
  exact (write_file_other _ _ _ _ _ _ _ _ E Hq).
Qed.
Lemma pod_prepare_files h s d t s' : pod_prepare h s d t = Some s' ->
  fs_files s' (d ++ ["output"]) = Some (511, "") /\ fs_files s' (d ++ ["progress"]) = Some (511, "") /\
  (exists m, fs_files s' (d ++ ["entrypoint.sh"]) = Some (m, script_of t) /\
     (fs_files s (d ++ ["entrypoint.sh"]) = None -> m = Z.ldiff 493 (h_umask h))) /\
  (forall q, q <> d ++ ["output"] -> q <> d ++ ["progress"] -> q <> d ++ ["entrypoint.sh"] -> fs_files s' q = fs_files s q).
Proof.
  unfold pod_prepare. destruct (mkdir_all s d) as [s0|] eqn:E0; [|discriminate].
  destruct (create_777 _ _ s0 (d ++ ["output"])) as [s1|] eqn:E1; [|discriminate].
  destruct (create_777 _ _ s1 (d ++ ["progress"])) as [s2|] eqn:E2; [|discriminate]. intros E3.
  apply mkdir_all_files in E0. destruct (create_777_at _ _ _ _ _ E1) as (A1 & B1). destruct (create_777_at _ _ _ _ _ E2) as (A2 & B2).
  destruct (write_file_at _ _ _ _ _ _ _ E3) as (m & A3 & M3).
  assert (N1 : d ++ ["output"] <> d ++ ["progress"]) by (apply last_neq; discriminate).
  assert (N2 : d ++ ["output"] <> d ++ ["entrypoint.sh"]) by (apply last_neq; discriminate).
  assert (N3 : d ++ ["progress"] <> d ++ ["entrypoint.sh"]) by (apply last_neq; discriminate).
  assert (N4 : d ++ ["entrypoint.sh"] <> d ++ ["progress"]) by (apply last_neq; discriminate).
  assert (N5 : d ++ ["entrypoint.sh"] <> d ++ ["output"]) by (apply last_neq; discriminate).
  split; [rewrite (write_file_other _ _ _ _ _ _ _ _ E3 N2), (B2 _ N1); exact A1|].
  split; [rewrite (write_file_other _ _ _ _ _ _ _ _ E3 N3); exact A2|].
  split.
  - exists m. split; [exact A3|]. intros Hs. apply M3. rewrite (B2 _ N4), (B1 _ N5), E0. exact Hs.
  - intros q Q1 Q2 Q3. rewrite (write_file_other _ _ _ _ _ _ _ _ E3 Q3), (B2 _ Q2), (B1 _ Q1), E0. reflexivity.
Qed.
Lemma pod_files_other root um d order : forall s s' q, pod_files root um s d order = Some s' ->
  (forall n c, In (n, c) order -> at_ (d ++ ["workdir"]) n <> q) -> fs_files s' q = fs_files s q.
Proof.
  induction order as [|[n c] order IH]; intros s s' q H Hq; cbn [pod_files] in H; [injection H as <-; reflexivity|].
  destruct (mkdir_all s (d ++ ["workdir"])) as [s0|] eqn:E0; [|discriminate].
  destruct (write_file root um s0 (at_ (d ++ ["workdir"]) n) 292 c) as [s1|] eqn:E; [|discriminate].
  rewrite (IH _ _ q H (fun n' c' Hin => Hq n' c' (or_intror Hin))).
  rewrite <- (mkdir_all_files _ _ _ E0).
  apply (write_file_other _ _ _ _ _ _ _ _ E). intros ->. exact (Hq n c (or_introl eq_refl) eq_refl).
Qed.
Lemma pod_files_in root um d order : forall s s' n c, pod_files root um s d order = Some s' -> In (n, c) order ->
  NoDup (map (fun p => at_ (d ++ ["workdir"]) (fst p)) order) -> exists m, fs_files s' (at_ (d ++ ["workdir"]) n) = Some (m, c) /\
    (fs_files s (at_ (d ++ ["workdir"]) n) = None -> m = Z.ldiff 292 um).
Proof.
  induction order as [|[n0 c0] order IH]; intros s s' n c H Hin Hn; [contradiction|].
  cbn [pod_files] in H. destruct (mkdir_all s (d ++ ["workdir"])) as [s0|] eqn:E0; [|discriminate].
  destruct (write_file root um s0 (at_ (d ++ ["workdir"]) n0) 292 c0) as [s1|] eqn:E; [|discriminate].
  inversion Hn as [|? ? Hni Hnd]; subst. cbn [fst] in Hni. pose proof (mkdir_all_files _ _ _ E0) as F0.
  destruct Hin as [Eq|Hin].
  - injection Eq as <- <-. destruct (write_file_at _ _ _ _ _ _ _ E) as (m & Em & Hm). exists m. rewrite F0 in Hm. split; [|exact Hm].
    rewrite (pod_files_other _ _ _ _ _ _ _ H); [exact Em|]. intros n c Hin Hc. apply Hni. apply in_map_iff. exists (n, c). auto.
  - destruct (IH _ _ _ _ H Hin Hnd) as (m & Em & Hm). exists m. split; [exact Em|]. intros Hs. apply Hm.
    rewrite (write_file_other _ _ _ _ _ _ _ _ E); [rewrite F0; exact Hs|]. intros Hc. apply Hni. apply in_map_iff. exists (n, c). auto.
Qed.

Lemma split_at_app c a b : ~ In c (list_ascii_of_string a) -> ~ In c (list_ascii_of_string b) ->
  split_at c (a ++ String c b) = [a; b].
Proof.
  intros Ha Hb. induction a as [|x a IH]; cbn [String.append split_at].
  - rewrite Ascii.eqb_refl. f_equal. clear Ha. induction b as [|y b IHb]; [reflexivity|]. cbn [split_at].
    destruct (Ascii.eqb_spec y c) as [->|_]; [exfalso; apply Hb; cbn; auto|].
    rewrite IHb; [reflexivity|]. intros H. apply Hb. cbn. auto.
  - destruct (Ascii.eqb_spec x c) as [->|_]; [exfalso; apply Ha; cbn; auto|].
    rewrite IH; [reflexivity|]. intros H. apply Ha. cbn. auto.
Qed.
Lemma volume_pair a b : no_colon a -> no_colon b -> volume (a ++ ":" ++ b) = Some (a, b).
Proof. intros Ha Hb. unfold volume. change (":" ++ b)%string with (String ":" b). rewrite (split_at_app ":" a b Ha Hb). reflexivity. Qed.

(** the task's directory is what the container sees below /tork *)
Lemma tork_shown w ms o s q : po_volumes o = (w ++ ":/tork")%string :: map (fun m => (m_source m ++ ":" ++ m_target m)%string) ms ->
  no_colon w -> (forall m, In m ms -> no_colon (m_source m) /\ no_colon (m_target m) /\ below ["tork"] (abs (m_target m)) = false) ->
  pod_file o s ("tork" :: q) = fs_files s (abs w ++ q).
Proof.
  intros Ev Hw Hms. unfold pod_file. rewrite Ev. cbn [fold_left].
  assert (E0 : deeper ("tork" :: q) None (w ++ ":/tork") = Some (abs w, ["tork"])).
  { unfold deeper. change (w ++ ":/tork")%string with (w ++ ":" ++ "/tork")%string.
    rewrite (volume_pair w "/tork" Hw) by (unfold no_colon; cbn; intuition discriminate).
    change (abs "/tork") with ["tork"]. change ("tork" :: q) with (["tork"] ++ q). rewrite (below_app ["tork"] q). reflexivity. }
  rewrite E0.
  assert (G : fold_left (deeper ("tork" :: q)) (map (fun m => (m_source m ++ ":" ++ m_target m)%string) ms) (Some (abs w, ["tork"])) =
              Some (abs w, ["tork"])).
  { clear Ev E0. induction ms as [|m ms IH]; [reflexivity|]. cbn [map fold_left].
    destruct (Hms m (or_introl eq_refl)) as (H1 & H2 & H3).
    assert (E : deeper ("tork" :: q) (Some (abs w, ["tork"])) (m_source m ++ ":" ++ m_target m) = Some (abs w, ["tork"])).
    { unfold deeper. rewrite (volume_pair _ _ H1 H2). destruct (below (abs (m_target m)) ("tork" :: q)) eqn:Eb; [|reflexivity].
      destruct (abs (m_target m)) as [|x l] eqn:Et; [reflexivity|]. exfalso.
      unfold below in Eb, H3. apply path_eqb_true in Eb. cbn [List.length firstn] in Eb. injection Eb as <- _.
      cbn [List.length firstn] in H3. rewrite path_eqb_refl in H3. discriminate. }
    rewrite E. apply IH. intros m' Hin. exact (Hms m' (or_intror Hin)). }
  rewrite G. reflexivity.
Qed.

(** C77: what the container sees: the task's script, its files in the directory workdir, and an empty result. *)
Theorem C77_files : forall slug h cfg a w s t r cmds s' args s1,
  pod_runs slug h cfg a w s t r cmds s' -> In (PcCreate args s1) cmds -> no_dash (t_image t) ->
  unused s (abs w) -> is_map (t_files t) -> (forall n c, In (n, c) (t_files t) -> plain_name n) -> no_colon w ->
  (forall m, In m (t_mounts t) -> no_colon (m_source m) /\ no_colon (m_target m) /\ below ["tork"] (abs (m_target m)) = false) ->
  exists o, podman_create no_opts args = Some o /\
    pod_file o s1 ["tork"; "entrypoint.sh"] =
      Some (Z.ldiff 493 (h_umask h), if String.eqb (t_run t) "" then join " " (t_cmd t) else t_run t) /\
    pod_file o s1 ["tork"; "output"] = Some (511, "") /\ pod_file o s1 ["tork"; "progress"] = Some (511, "") /\
    (forall n c, In (n, c) (t_files t) -> pod_file o s1 ["tork"; "workdir"; n] = Some (Z.ldiff 292 (h_umask h), c)) /\
    (forall q, below (abs w) q = false -> fs_files s1 q = fs_files s q).
Proof.
  intros slug h cfg a w s t r cmds s' args s1 H Hin Hd Hun Hm Hpl Hw Hms.
  destruct (C77_arguments _ _ _ _ _ _ _ _ _ _ _ _ H Hin Hd) as (o & Ho & _ & _ & _ & Hv & _). exists o. split; [exact Ho|].
  destruct (pod_runs_inv _ _ _ _ _ _ _ _ _ _ _ _ H Hin) as (envs & fls & nets & mounts & s0 & _ & Hf & _ & _ & Hp & Hpf & _).
  destruct (pod_prepare_files _ _ _ _ _ Hp) as (P1 & P2 & (m3 & P3 & M3) & P4).
  set (d := abs w) in *.
  assert (Hm' : is_map fls) by exact (Permutation_NoDup (Permutation_map fst (Permutation_sym Hf)) Hm).
  assert (Hpl' : forall n c, In (n, c) fls -> plain_name n) by (intros n c Hi; exact (Hpl n c (Permutation_in _ Hf Hi))).
  assert (Hat : forall n c, In (n, c) fls -> at_ (d ++ ["workdir"]) n = d ++ ["workdir"; n])
    by (intros n c Hi; rewrite (at_plain _ n (Hpl' n c Hi)), <- app_assoc; reflexivity).
  assert (Hother : forall x n c, In (n, c) fls -> at_ (d ++ ["workdir"]) n <> d ++ [x]).
  { intros x n c Hi E. rewrite (Hat n c Hi) in E. apply app_inv_head in E. discriminate. }
  rewrite !(tork_shown w (t_mounts t) o s1 _ Hv Hw Hms). fold d.
  split; [rewrite (pod_files_other _ _ _ _ _ _ _ Hpf (Hother _)), P3, M3; [reflexivity|exact (proj2 (Hun _ (below_app d _)))]|].
  split; [rewrite (pod_files_other _ _ _ _ _ _ _ Hpf (Hother _)); exact P1|].
  split; [rewrite (pod_files_other _ _ _ _ _ _ _ Hpf (Hother _)); exact P2|].
  split.
  - intros n c Hi. rewrite (tork_shown w (t_mounts t) o s1 _ Hv Hw Hms). fold d. apply (Permutation_in _ (Permutation_sym Hf)) in Hi.
    destruct (pod_files_in _ _ _ _ _ _ _ _ Hpf Hi (plain_nodup _ fls Hm' Hpl')) as (m & Em & Hmm).
    rewrite (Hat n c Hi) in Em, Hmm. rewrite Em, Hmm; [reflexivity|].
    rewrite P4; [exact (proj2 (Hun _ (below_app d _)))| | |]; intros E; apply app_inv_head in E; discriminate.
  - intros q Hq. rewrite (pod_files_other _ _ _ _ _ _ _ Hpf).
    + apply P4; intros ->; rewrite below_app in Hq; discriminate.
    + intros n c Hi E. rewrite (Hat n c Hi) in E. subst q. rewrite below_app in Hq. discriminate.
Qed.
Print Assumptions C77_files.

Definition is_remove (c : pcmd) : bool := match c with PcRemove _ => true | _ => false end.
(** C77: a container that was created is removed, once, as the last thing; no other container is; and the task's directory
    is gone afterwards. *)
Theorem C77_removed : forall slug h cfg a w s t r cmds s',
  pod_runs slug h cfg a w s t r cmds s' ->
  (forall args s1 id, In (PcCreate args s1) cmds -> an_create a = Some id -> id <> "" ->
     exists before, cmds = before ++ [PcRemove id] /\ filter is_remove before = []) /\
  (forall id, In (PcRemove id) cmds -> an_create a = Some id) /\
  (forall q, below (abs w) q = true -> fs_dirs s' q = false /\ fs_files s' q = None).
Proof.
  intros slug h cfg a w s t r cmds s' (envs & fls & _ & _ & H). unfold pod_run in H.
  assert (C : forall s0 q, below (abs w) q = true -> fs_dirs (remove_dir s0 (abs w)) q = false /\ fs_files (remove_dir s0 (abs w)) q = None)
    by (intros s0 q Hq; cbn; rewrite Hq; split; reflexivity).
  destruct (pod_prepare h s (abs w) t) as [s0|]; [|injection H as <- <- <-; split; [intros ? ? ? []|split; [intros ? []|apply C]]].
  destruct (pod_container slug h cfg a w envs fls t s0) as [[r1 c1] s2] eqn:E. injection H as <- <- <-.
  split; [|split; [|apply C]]; unfold pod_container in E;
  set (pulled := if an_has a then [PcInspectImage (t_image t)] else [PcInspectImage (t_image t); PcPull (t_image t)]) in E;
  (assert (Hpull : forall c, In c pulled -> is_remove c = false /\ forall x y, c <> PcCreate x y)
    by (unfold pulled; destruct (an_has a); cbn; intros c Hc; repeat destruct Hc as [<-|Hc]; try contradiction; (split; [reflexivity|discriminate]))).
  - intros args s1 id Hin Hid Hne.
    destruct (negb (an_has a) && negb (an_pull a)); [injection E as <- <- <-; destruct (proj2 (Hpull _ Hin) _ _ eq_refl)|].
    destruct (net_args (slug (t_name t)) (pd_hostnet cfg) (t_networks t)) as [e|nets]; [injection E as <- <- <-; destruct (proj2 (Hpull _ Hin) _ _ eq_refl)|].
    destruct (mount_args (t_mounts t)) as [e|mounts]; [injection E as <- <- <-; destruct (proj2 (Hpull _ Hin) _ _ eq_refl)|].
    destruct (pod_files (root_of h) (h_umask h) s0 (abs w) fls) as [s3|]; [|injection E as <- <- <-; destruct (proj2 (Hpull _ Hin) _ _ eq_refl)].
    rewrite Hid, (proj2 (String.eqb_neq _ _) Hne) in E.
    destruct (pod_wait a (abs w) id s3) as [[r2 c2] s4] eqn:Ew. injection E as <- <- <-.
    exists (pulled ++ [PcCreate (create_args cfg w envs t nets mounts) s3] ++ c2).
    split; [rewrite <- !app_assoc; reflexivity|].
    rewrite !filter_app. assert (F1 : filter is_remove pulled = []) by (unfold pulled; destruct (an_has a); reflexivity).
    rewrite F1. cbn [filter is_remove app].
    unfold pod_wait in Ew. destruct (negb (an_start a)); [injection Ew as <- <- <-; reflexivity|].
    destruct (negb (an_logs a)); [injection Ew as <- <- <-; reflexivity|]. destruct (an_exit a); injection Ew as <- <- <-; reflexivity.
  - intros id Hin.
    destruct (negb (an_has a) && negb (an_pull a)); [injection E as <- <- <-; discriminate (proj1 (Hpull _ Hin))|].
    destruct (net_args (slug (t_name t)) (pd_hostnet cfg) (t_networks t)) as [e|nets]; [injection E as <- <- <-; discriminate (proj1 (Hpull _ Hin))|].
    destruct (mount_args (t_mounts t)) as [e|mounts]; [injection E as <- <- <-; discriminate (proj1 (Hpull _ Hin))|].
    destruct (pod_files (root_of h) (h_umask h) s0 (abs w) fls) as [s3|]; [|injection E as <- <- <-; discriminate (proj1 (Hpull _ Hin))].
    destruct (an_create a) as [id'|].
    + destruct (String.eqb id' "").
      * injection E as <- <- <-. apply in_app_or in Hin as [Hin|[Hin|[]]]; [discriminate (proj1 (Hpull _ Hin))|discriminate].
      * destruct (pod_wait a (abs w) id' s3) as [[r2 c2] s4] eqn:Ew. injection E as <- <- <-.
        apply in_app_or in Hin as [Hin|Hin]; [discriminate (proj1 (Hpull _ Hin))|]. cbn [app] in Hin.
        destruct Hin as [Hin|Hin]; [discriminate|]. apply in_app_or in Hin as [Hin|[Hin|[]]]; [|injection Hin as <-; reflexivity].
        exfalso. unfold pod_wait in Ew. destruct (negb (an_start a)); [injection Ew as <- <- <-; cbn in Hin; intuition discriminate|].
        destruct (negb (an_logs a)); [injection Ew as <- <- <-; cbn in Hin; intuition discriminate|].
        destruct (an_exit a); injection Ew as <- <- <-; cbn in Hin; intuition discriminate.
    + injection E as <- <- <-. apply in_app_or in Hin as [Hin|[Hin|[]]]; [discriminate (proj1 (Hpull _ Hin))|discriminate].
Qed.
Print Assumptions C77_removed.

(** C77: a task has a result only if its container was created, started, its log read to the end, and the process ended with
    status 0; the result is what the file named by TORK_OUTPUT contained then. *)
Theorem C77_result : forall slug h cfg a w s t o cmds s',
  pod_runs slug h cfg a w s t (inr o) cmds s' ->
  exists args s1 id m, In (PcCreate args s1) cmds /\ an_create a = Some id /\ an_start a = true /\ an_logs a = true /\ an_exit a = Some "0" /\
    fs_files (an_work a s1) (abs w ++ ["output"]) = Some (m, o).
Proof.
  intros slug h cfg a w s t o cmds s' (envs & fls & _ & _ & H). unfold pod_run in H.
  destruct (pod_prepare h s (abs w) t) as [s0|]; [|discriminate].
  destruct (pod_container slug h cfg a w envs fls t s0) as [[r1 c1] s2] eqn:E. injection H as -> <- <-.
  unfold pod_container in E. destruct (negb (an_has a) && negb (an_pull a)); [discriminate|].
  destruct (net_args (slug (t_name t)) (pd_hostnet cfg) (t_networks t)) as [e|nets]; [discriminate|].
  destruct (mount_args (t_mounts t)) as [e|mounts]; [discriminate|].
  destruct (pod_files (root_of h) (h_umask h) s0 (abs w) fls) as [s3|]; [|discriminate].
  destruct (an_create a) as [id|]; [|discriminate]. destruct (String.eqb id ""); [discriminate|].
  destruct (pod_wait a (abs w) id s3) as [[r2 c2] s4] eqn:Ew. injection E as -> <- <-.
  unfold pod_wait in Ew. destruct (an_start a); [|discriminate]. destruct (an_logs a); [|discriminate]. cbn [negb] in Ew.
  destruct (an_exit a) as [x|]; [|discriminate]. destruct (String.eqb x "0") eqn:Ex; [|discriminate].
  apply String.eqb_eq in Ex.
  destruct (fs_files (an_work a s3) (abs w ++ ["output"])) as [[m o']|] eqn:Eo; [|discriminate].
  injection Ew as -> <- <-. exists (create_args cfg w envs t nets mounts), s3, id, m.
  split; [apply in_or_app; right; left; reflexivity|]. rewrite Ex. auto 10.
Qed.
Print Assumptions C77_result.

(** C77: without the node's permission a task that names the network "host" creates no container. *)
Theorem C77_host_network : forall slug h cfg a w s t r cmds s' args s1,
  pod_runs slug h cfg a w s t r cmds s' -> pd_hostnet cfg = false -> In "host" (t_networks t) ->
  ~ In (PcCreate args s1) cmds /\ exists e, r = inl e.
Proof.
  intros slug h cfg a w s t r cmds s' args s1 H Hh Hn.
  assert (G : forall nets, net_args (slug (t_name t)) (pd_hostnet cfg) (t_networks t) = inr nets -> False).
  { rewrite Hh. clear -Hn. induction (t_networks t) as [|n l IH]; intros nets H; [contradiction|]. cbn [net_args] in H.
    destruct (String.eqb_spec n "host") as [->|Hne]; [discriminate|]. cbn [andb] in H.
    destruct Hn as [->|Hn]; [contradiction|].
    destruct (net_args (slug (t_name t)) false l) as [e|r] eqn:E; [discriminate|]. exact (IH Hn r eq_refl). }
  split.
  - intros Hin. destruct (pod_runs_inv _ _ _ _ _ _ _ _ _ _ _ _ H Hin) as (? & ? & nets & ? & ? & _ & _ & En & _). exact (G nets En).
  - destruct r as [e|o]; [exists e; reflexivity|]. exfalso.
    destruct (C77_result _ _ _ _ _ _ _ _ _ _ H) as (args' & s2 & _ & _ & Hin & _).
    destruct (pod_runs_inv _ _ _ _ _ _ _ _ _ _ _ _ H Hin) as (? & ? & nets & ? & ? & _ & _ & En & _). exact (G nets En).
Qed.
Print Assumptions C77_host_network.

(** C77 (a finding): limits, GPUs and registry credentials of a task make no difference. *)
Theorem C77_limits_ignored : forall slug h cfg a w s t r cmds s' l g reg,
  pod_runs slug h cfg a w s t r cmds s' <->
  pod_runs slug h cfg a w s (t <| t_limits := l |> <| t_gpus := g |> <| t_registry := reg |>) r cmds s'.
Proof. intros. split; intros (envs & fls & He & Hf & H); exists envs, fls; (split; [exact He|]; split; [exact Hf|exact H]). Qed.
Print Assumptions C77_limits_ignored.

(* ------------------------------------------------------------------ *)
(** * Examples and refutations *)
Definition ok_answers : answers :=
  mkAnswers false true (Some "c1") true true (Some "0")
    (fun s => mkFs (fs_dirs s) (fun q => if path_eqb q ["tmp"; "tork"; "7"; "output"] then Some (511, "done") else fs_files s q)).
Definition ex_pod : task :=
  no_task <| t_id := 7%N |> <| t_name := "build" |> <| t_image := "ubuntu" |> <| t_run := "make > $TORK_OUTPUT" |>
    <| t_env := [("A", "1")] |> <| t_files := [("Makefile", "all:")] |> <| t_networks := ["net1"] |>
    <| t_mounts := [mkMount "m1" "volume" "/tmp/tork-volume-1" "/data" []] |>.
Definition pod_of (cfg : pcfg) (a : answers) (t : task) := pod_run (fun s => s) ex_host cfg a "/tmp/tork/7" ex_fs (t_env t) (t_files t) t.
Lemma pod_of_runs cfg a t r cmds s' : pod_of cfg a t = (r, cmds, s') -> pod_runs (fun s => s) ex_host cfg a "/tmp/tork/7" ex_fs t r cmds s'.
Proof. intros H. exists (t_env t), (t_files t). split; [apply Permutation_refl|]. split; [apply Permutation_refl|exact H]. Qed.
Lemma ex_unused : unused ex_fs (abs "/tmp/tork/7").
Proof.
  intros q Hq. split; [|reflexivity]. unfold below in Hq. apply path_eqb_true in Hq.
  destruct q as [|x [|y q]]; [discriminate Hq|discriminate Hq|]. cbn [ex_fs fs_dirs]. unfold path_eqb.
  destruct (list_eq_dec string_dec (x :: y :: q) []); [discriminate|].
  destruct (list_eq_dec string_dec (x :: y :: q) ["tmp"]); [discriminate|]. reflexivity.
Qed.
(** the arguments and files of the first container created *)
Fixpoint created_in (cmds : list pcmd) : list string * fsys :=
  match cmds with [] => ([], ex_fs) | PcCreate args s :: _ => (args, s) | _ :: cmds => created_in cmds end.
Fixpoint creates (cmds : list pcmd) : bool := match cmds with [] => false | PcCreate _ _ :: _ => true | _ :: cmds => creates cmds end.
Lemma created_in_in cmds : creates cmds = true -> In (PcCreate (fst (created_in cmds)) (snd (created_in cmds))) cmds.
Proof. induction cmds as [|c cmds IH]; [discriminate|]. destruct c; cbn [creates created_in]; intros H; try (right; exact (IH H)). left. reflexivity. Qed.
Definition pod_result cfg a t := fst (fst (pod_of cfg a t)).
Definition pod_cmds cfg a t := snd (fst (pod_of cfg a t)).
Definition pod_after cfg a t := snd (pod_of cfg a t).
Lemma pod_of_all cfg a t : pod_runs (fun s => s) ex_host cfg a "/tmp/tork/7" ex_fs t (pod_result cfg a t) (pod_cmds cfg a t) (pod_after cfg a t).
Proof. apply pod_of_runs. unfold pod_result, pod_cmds, pod_after. destruct (pod_of cfg a t) as [[r c] s']. reflexivity. Qed.
Definition pod_args cfg a t := fst (created_in (pod_cmds cfg a t)).
Definition pod_at_create cfg a t := snd (created_in (pod_cmds cfg a t)).
Definition pod_shape (c : pcmd) : string :=
  match c with PcInspectImage i => "inspect " ++ i | PcPull i => "pull " ++ i | PcCreate _ _ => "create" | PcStart i => "start " ++ i
  | PcLogs i => "logs " ++ i | PcInspect i => "inspect " ++ i | PcRemove i => "rm " ++ i end.

(** the task [ex_pod] meets the hypotheses of the theorems *)
Example C77_example : exists cmds s' args s1,
  pod_runs (fun s => s) ex_host (mkPcfg false false) ok_answers "/tmp/tork/7" ex_fs ex_pod (inr "done") cmds s' /\
  In (PcCreate args s1) cmds /\ no_dash (t_image ex_pod) /\ is_map (t_files ex_pod) /\
  (forall n c, In (n, c) (t_files ex_pod) -> plain_name n) /\ no_colon "/tmp/tork/7" /\
  (forall m, In m (t_mounts ex_pod) -> no_colon (m_source m) /\ no_colon (m_target m) /\ below ["tork"] (abs (m_target m)) = false) /\
  args = ["-v"; "/tmp/tork/7:/tork"; "--entrypoint"; "sh"; "-e"; "A=1"; "-e"; "TORK_OUTPUT=/tork/output"; "-e"; "TORK_PROGRESS=/tork/progress";
          "--network"; "net1"; "--network-alias"; "build"; "-v"; "/tmp/tork-volume-1:/data"; "-w"; "/tork/workdir"; "ubuntu"; "/tork/entrypoint.sh"] /\
  map pod_shape cmds = ["inspect ubuntu"; "pull ubuntu"; "create"; "start c1"; "logs c1"; "inspect c1"; "rm c1"].
Proof.
  pose (cfg := mkPcfg false false).
  exists (pod_cmds cfg ok_answers ex_pod), (pod_after cfg ok_answers ex_pod), (pod_args cfg ok_answers ex_pod), (pod_at_create cfg ok_answers ex_pod).
  assert (R : pod_result cfg ok_answers ex_pod = inr "done") by (vm_compute; reflexivity).
  split; [rewrite <- R; exact (pod_of_all cfg ok_answers ex_pod)|]. split; [apply created_in_in; vm_compute; reflexivity|].
  split; [reflexivity|]. split; [repeat constructor; cbn; intuition discriminate|].
  split; [intros n c [H|[]]; injection H as <- <-; split; [discriminate|]; split; [discriminate|]; split; [discriminate|]; cbn; intuition discriminate|].
  split; [unfold no_colon; cbn; intuition discriminate|].
  split; [intros m [<-|[]]; unfold no_colon; split; [cbn; intuition discriminate|]; split; [cbn; intuition discriminate|reflexivity]|].
  split; [vm_compute; reflexivity|]. vm_compute. reflexivity.
Qed.

(** C77_files is false for names that leave the directory: a task writes any file of the machine, and it stays. *)
Theorem C77_escape_refuted : exists t r cmds s',
  pod_runs (fun s => s) ex_host (mkPcfg false false) ok_answers "/tmp/tork/7" ex_fs t r cmds s' /\
  fs_files ex_fs ["tmp"; "x"] = None /\ fs_files s' ["tmp"; "x"] = Some (292, "owned").
Proof.
  pose (cfg := mkPcfg false false). pose (t := ex_pod <| t_files := [("../../../x", "owned")] |>).
  exists t, (pod_result cfg ok_answers t), (pod_cmds cfg ok_answers t), (pod_after cfg ok_answers t).
  split; [apply pod_of_all|]. split; [reflexivity|]. vm_compute. reflexivity.
Qed.
Print Assumptions C77_escape_refuted.

(** An image named like an option: podman makes a privileged container with a directory of the machine in it, on a node that
    permits neither.  ("podman inspect -l" answers if there is any container, so nothing is pulled.) *)
Theorem C77_option_image_refuted : exists t r cmds s' args s1 o,
  pod_runs (fun s => s) ex_host (mkPcfg false false) (mkAnswers true false (Some "c1") true true (Some "0") (fun s => s))
    "/tmp/tork/7" ex_fs t r cmds s' /\ In (PcCreate args s1) cmds /\ t_mounts t = [] /\
  podman_create no_opts args = Some o /\ po_privileged o = true /\ In "/:/host" (po_volumes o) /\ po_image o = "ubuntu".
Proof.
  pose (cfg := mkPcfg false false). pose (a := mkAnswers true false (Some "c1") true true (Some "0") (fun s => s)).
  pose (t := no_task <| t_name := "x" |> <| t_run := "id" |> <| t_image := "-l" |>
    <| t_entrypoint := ["sh"; "a=b"; "--privileged"; "-v"; "/:/host"; "ubuntu"] |>).
  exists t, (pod_result cfg a t), (pod_cmds cfg a t), (pod_after cfg a t), (pod_args cfg a t), (pod_at_create cfg a t).
  destruct (podman_create no_opts (pod_args cfg a t)) as [o|] eqn:E; [|vm_compute in E; discriminate]. exists o.
  split; [apply pod_of_all|]. split; [apply created_in_in; vm_compute; reflexivity|].
  split; [reflexivity|]. split; [reflexivity|].
  vm_compute in E. injection E as <-. split; [reflexivity|]. split; [right; left; reflexivity|reflexivity].
Qed.
Print Assumptions C77_option_image_refuted.

(** The guard compares one name only: the network of the machine can be named otherwise. *)
Theorem C77_host_namespace_refuted : exists t r cmds s' args s1 o,
  pod_runs (fun s => s) ex_host (mkPcfg false false) ok_answers "/tmp/tork/7" ex_fs t r cmds s' /\
  In (PcCreate args s1) cmds /\ podman_create no_opts args = Some o /\ In "ns:/proc/1/ns/net" (po_networks o).
Proof.
  pose (cfg := mkPcfg false false). pose (a := ok_answers).
  pose (t := ex_pod <| t_networks := ["ns:/proc/1/ns/net"] |>).
  exists t, (pod_result cfg a t), (pod_cmds cfg a t), (pod_after cfg a t), (pod_args cfg a t), (pod_at_create cfg a t).
  destruct (podman_create no_opts (pod_args cfg a t)) as [o|] eqn:E; [|vm_compute in E; discriminate]. exists o.
  split; [apply pod_of_all|]. split; [apply created_in_in; vm_compute; reflexivity|]. split; [reflexivity|].
  vm_compute in E. injection E as <-. left. reflexivity.
Qed.
Print Assumptions C77_host_namespace_refuted.

(** The words of a command are not kept apart: two commands with different words run the same script. *)
Theorem C77_words_refuted : exists t t', t_run t = "" /\ t_run t' = "" /\ t_cmd t <> t_cmd t' /\ script_of t = script_of t'.
Proof.
  exists (no_task <| t_cmd := ["echo"; "a  b"] |>), (no_task <| t_cmd := ["echo"; "a "; "b"] |>).
  split; [reflexivity|]. split; [reflexivity|]. split; [discriminate|reflexivity].
Qed.
Print Assumptions C77_words_refuted.

(** With a directory of its own a task does not find its files there. *)
Theorem C77_own_workdir_refuted : exists t r cmds s' args s1 o,
  pod_runs (fun s => s) ex_host (mkPcfg false false) ok_answers "/tmp/tork/7" ex_fs t r cmds s' /\ In (PcCreate args s1) cmds /\
  podman_create no_opts args = Some o /\ po_workdir o = Some "/src" /\ In ("Makefile", "all:") (t_files t) /\
  pod_file o s1 ["src"; "Makefile"] = None.
Proof.
  pose (cfg := mkPcfg false false). pose (a := ok_answers). pose (t := ex_pod <| t_workdir := "/src" |>).
  exists t, (pod_result cfg a t), (pod_cmds cfg a t), (pod_after cfg a t), (pod_args cfg a t), (pod_at_create cfg a t).
  destruct (podman_create no_opts (pod_args cfg a t)) as [o|] eqn:E; [|vm_compute in E; discriminate]. exists o.
  split; [apply pod_of_all|]. split; [apply created_in_in; vm_compute; reflexivity|]. split; [reflexivity|].
  vm_compute in E. injection E as <-. split; [reflexivity|]. split; [left; reflexivity|]. vm_compute. reflexivity.
Qed.
Print Assumptions C77_own_workdir_refuted.
