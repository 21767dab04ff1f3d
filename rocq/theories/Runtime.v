(** C54: order of pre, main and post tasks and cleanup in the container and shell runtimes.
    runtime/docker/docker.go:137-262 (Run, doRun), runtime/docker/tcontainer.go:43-243 (createTaskContainer, Start,
    Remove, Wait as opaque calls), runtime/podman/podman.go:94-162 (Run), runtime/shell/shell.go:79-136 (Run).
    Every call to the container engine, the mounter or the operating system is an opaque operation that may fail at any
    moment: the k-th call of a run fails iff [o k] is an error; the theorems hold for every such [o].
    Not modelled: log shipping (LogShip.v), progress reporting, image pruning, pulling credentials, the content of the
    container configuration, the timeout context (a timeout is a failing operation). *)
From Coq Require Import Permutation DecimalString DecimalN.
From Verif Require Import Types.
Open Scope string_scope.
Open Scope list_scope.
Open Scope Z_scope.

(* ------------------------------------------------------------------ *)
(** * Model *)
(** Operations, in the order they are issued; [Begin]/[End] mark the boundaries of the [doRun] calls. *)
Inductive rop :=
| NetCreate (i : string) | NetRemove (i : string)
| Mount_ (m : mount) | Unmount_ (m : mount)
| Pull (t : task) | TorkMount (t : task) | Parse (t : task) | Create (t : task) | InitDirs (t : task)
| Ready (t : task)             (* marks the successful return of createTaskContainer *)
| Start (t : task) | Wait (t : task) | Remove (t : task)
| Begin (t : task) | End_ (t : task) (r : string + string).
Definition rev_ := (rop * option string)%type.    (* an operation and its error *)

Section Run.
Variable o : nat -> option string.     (* does the k-th operation fail? *)
Variable out : nat -> string.          (* output read if the k-th operation is a successful Wait *)
Variable uuid : nat -> id.             (* uuid.NewUUID() *)

Definition M (A : Type) := nat -> list rev_ * nat * A.
Definition ret {A} (a : A) : M A := fun n => ([], n, a).
Definition bind {A B} (m : M A) (f : A -> M B) : M B := fun n =>
  let '(l1, n1, a) := m n in let '(l2, n2, b) := f a n1 in (l1 ++ l2, n2, b).
Notation "x <- m ;; k" := (bind m (fun x => k)) (at level 90, right associativity).
Definition call (e : rop) : M (option string) := fun n => ([(e, o n)], S n, o n).
Definition mark (e : rop) : M unit := fun n => ([(e, None)], n, tt).
Definition new_id : M id := fun n => ([], S n, uuid n).

(** the text of an identifier (uuid.go: its printed form) *)
Definition id_text (i : id) : string := NilEmpty.string_of_uint (N.to_uint i).

(** tcontainer.go:43-218.  The checks of the mounts (pure) are part of [Parse].  After the volume "/tork" has been
    mounted the early returns do not unmount it. *)
Definition create_container (t : task) : M (option string) :=
  if is_noid (t_id t) then ret (Some "task id is required")
  else e <- call (Pull t) ;;
    match e with Some e => ret (Some e) | None =>
    e <- call (TorkMount t) ;;
    match e with Some e => ret (Some e) | None =>
    e <- call (Parse t) ;;
    match e with Some e => ret (Some e) | None =>
    e <- call (Create t) ;;
    match e with Some e => ret (Some e) | None =>
    e <- call (InitDirs t) ;;
    match e with Some e => ret (Some e) | None =>
    _ <- mark (Ready t) ;; ret None
    end end end end end.

(** docker.go:183-186, 197-200, 224-227: pre, post and sidecar tasks get an id and the mounts, networks and limits of
    the task they belong to *)
Definition inherit (t : task) (i : id) (p : task) : task :=
  p <| t_id := i |> <| t_mounts := t_mounts t |> <| t_networks := t_networks t |> <| t_limits := t_limits t |>.

(** docker.go:222-242: the sidecars; returns the error and the containers to remove (deferred, last first) *)
Fixpoint start_sidecars (t : task) (ss : list task) : M (option string * list task) :=
  match ss with
  | [] => ret (None, [])
  | s :: ss =>
      i <- new_id ;;
      let s := inherit t i s in
      e <- create_container s ;;
      match e with
      | Some e => ret (Some e, [])
      | None =>
          e <- call (Start s) ;;
          match e with
          | Some e => ret (Some e, [s])
          | None => r <- start_sidecars t ss ;; ret (fst r, s :: snd r)
          end
      end
  end.
Fixpoint remove_all (ts : list task) : M unit :=
  match ts with [] => ret tt | t :: ts => _ <- call (Remove t) ;; remove_all ts end.

(** docker.go:207-262 *)
Definition do_run (t : task) : M (task * option string) :=
  _ <- mark (Begin t) ;;
  e <- create_container t ;;
  r <- match e with
       | Some e => ret (inr e)
       | None =>
           sr <- start_sidecars t (t_sidecars t) ;;
           r <- match fst sr with
                | Some e => ret (inr e)
                | None =>
                    e <- call (Start t) ;;
                    match e with
                    | Some e => ret (inr e)
                    | None => fun n => match o n with
                                       | Some e => ([(Wait t, o n)], S n, inr e)
                                       | None => ([(Wait t, o n)], S n, inl (out n)) end
                    end
                end ;;
           _ <- remove_all (rev (snd sr)) ;;
           _ <- call (Remove t) ;;
           ret r
       end ;;
  _ <- mark (End_ t r) ;;
  ret (match r with inl s => (t <| t_result := s |>, None) | inr e => (t, Some e) end).

(** docker.go:182-190, 196-204: pre and post tasks inherit mounts, networks and limits *)
Fixpoint run_list (t : task) (ts : list task) : M (option string) :=
  match ts with
  | [] => ret None
  | p :: ts =>
      i <- new_id ;;
      r <- do_run (inherit t i p) ;;
      match snd r with Some e => ret (Some e) | None => run_list t ts end
  end.
(** docker.go:181-204 *)
Definition run_sequence (t : task) : M (task * option string) :=
  e <- run_list t (t_pre t) ;;
  match e with
  | Some e => ret (t, Some e)
  | None =>
      r <- do_run t ;;
      match snd r with
      | Some e => ret (fst r, Some e)
      | None => e <- run_list (fst r) (t_post t) ;; ret (fst r, e)
      end
  end.

(** docker.go:157-173: mounts the list, then runs [k]; unmounts what was mounted when leaving *)
Fixpoint with_mounts (t : task) (ms done : list mount) (k : task -> M (task * option string)) : M (task * option string) :=
  match ms with
  | [] => k (t <| t_mounts := done |>)
  | m :: ms =>
      i <- new_id ;;
      let m := m <| m_id := id_text i |> in
      e <- call (Mount_ m) ;;
      match e with
      | Some e => ret (t, Some e)
      | None => r <- with_mounts t ms (done ++ [m]) k ;; _ <- call (Unmount_ m) ;; ret r
      end
  end.

(** docker.go:137-206 (the network is known by the identifier it was created with) *)
Definition docker_run (t : task) : M (task * option string) :=
  let body t := with_mounts t (t_mounts t) [] run_sequence in
  match t_sidecars t with
  | [] => body t
  | _ =>
      i <- new_id ;;
      e <- call (NetCreate (id_text i)) ;;
      match e with
      | Some e => ret (t, Some e)
      | None =>
          r <- body (t <| t_networks := t_networks t ++ [id_text i] |>) ;;
          _ <- call (NetRemove (id_text i)) ;;
          ret r
      end
  end.

(** podman.go:94-162: the same without sidecars and networks, with more checks *)
Definition podman_run (t : task) : M (task * option string) :=
  if is_noid (t_id t) then ret (t, Some "task id is required")
  else if String.eqb (t_image t) "" then ret (t, Some "task image is required")
  else if String.eqb (t_name t) "" then ret (t, Some "task name is required")
  else match t_sidecars t with
       | [] => with_mounts t (t_mounts t) [] run_sequence
       | _ => ret (t, Some "sidecars are not supported in podman runtime")
       end.

(** shell.go:79-136: only the main task is checked for unsupported settings *)
Definition shell_reject (t : task) : option string :=
  if is_noid (t_id t) then Some "task id is required"
  else if negb (match t_mounts t with [] => true | _ => false end) then Some "mounts are not supported on shell runtime"
  else if negb (match t_entrypoint t with [] => true | _ => false end) then Some "entrypoint is not supported on shell runtime"
  else if negb (String.eqb (t_image t) "") then Some "image is not supported on shell runtime"
  else if match t_limits t with Some l => negb (String.eqb (l_cpus l) "") || negb (String.eqb (l_memory l) "") | None => false end then Some "limits are not supported on shell runtime"
  else if negb (match t_networks t with [] => true | _ => false end) then Some "networks are not supported on shell runtime"
  else if match t_registry t with Some _ => true | None => false end then Some "registry is not supported on shell runtime"
  else if negb (match t_cmd t with [] => true | _ => false end) then Some "cmd is not supported on shell runtime"
  else if negb (match t_sidecars t with [] => true | _ => false end) then Some "sidecars are not supported on shell runtime"
  else None.
(** shell.go:138-266: one process; setting it up, starting it and waiting for it *)
Definition shell_do_run (t : task) : M (task * option string) :=
  _ <- mark (Begin t) ;;
  e <- call (InitDirs t) ;;
  r <- match e with
       | Some e => ret (inr e)
       | None => e <- call (Start t) ;;
                 match e with
                 | Some e => ret (inr e)
                 | None => fun n => match o n with
                                    | Some e => ([(Wait t, o n)], S n, inr e)
                                    | None => ([(Wait t, o n)], S n, inl (out n)) end
                 end
       end ;;
  _ <- mark (End_ t r) ;;
  ret (match r with inl s => (t <| t_result := s |>, None) | inr e => (t, Some e) end).
Fixpoint shell_list (ts : list task) : M (option string) :=
  match ts with
  | [] => ret None
  | p :: ts => i <- new_id ;; r <- shell_do_run (p <| t_id := i |>) ;;
               match snd r with Some e => ret (Some e) | None => shell_list ts end
  end.
Definition shell_run (t : task) : M (task * option string) :=
  match shell_reject t with
  | Some e => ret (t, Some e)
  | None =>
      e <- shell_list (t_pre t) ;;
      match e with
      | Some e => ret (t, Some e)
      | None => r <- shell_do_run t ;;
                match snd r with
                | Some e => ret (fst r, Some e)
                | None => e <- shell_list (t_post t) ;; ret (fst r, e)
                end
      end
  end.

(* ------------------------------------------------------------------ *)
(** * Specification *)
(** the executions, in order, with their outcome *)
Fixpoint execs (l : list rev_) : list (task * (string + string)) :=
  match l with
  | [] => []
  | (End_ t r, _) :: l => (t, r) :: execs l
  | _ :: l => execs l
  end.
Definition begun (l : list rev_) : list task := flat_map (fun p => match fst p with Begin t => [t] | _ => [] end) l.
Definition mounted (l : list rev_) : list mount := flat_map (fun p => match p with (Mount_ m, None) => [m] | _ => [] end) l.
Definition unmounted (l : list rev_) : list mount := flat_map (fun p => match fst p with Unmount_ m => [m] | _ => [] end) l.
Definition ready (l : list rev_) : list task := flat_map (fun p => match p with (Ready t, _) => [t] | _ => [] end) l.
Definition removed (l : list rev_) : list task := flat_map (fun p => match fst p with Remove t => [t] | _ => [] end) l.
Definition nets (l : list rev_) : list string := flat_map (fun p => match p with (NetCreate i, None) => [i] | _ => [] end) l.
Definition netrems (l : list rev_) : list string := flat_map (fun p => match fst p with NetRemove i => [i] | _ => [] end) l.
Definition torkdirs (l : list rev_) : nat := length (filter (fun p => match p with (TorkMount _, None) => true | _ => false end) l).

(** two tasks with the same definition: what is executed for a pre/post task is that task with an id and the mounts,
    networks and limits of the main task *)
Definition same_def (d x : task) : Prop :=
  x = d <| t_id := t_id x |> <| t_mounts := t_mounts x |> <| t_networks := t_networks x |> <| t_limits := t_limits x |>.

(** The English claim: the executions [ex] with final verdict [e] are those of the plan [plan], in order, up to and
    including the first failure. *)
Inductive follows : list task -> list (task * (string + string)) -> option string -> Prop :=
| fo_done : follows [] [] None
| fo_ok d x s plan ex e : same_def d x -> follows plan ex e -> follows (d :: plan) ((x, inl s) :: ex) e
| fo_fail d x err plan : same_def d x -> follows (d :: plan) [(x, inr err)] (Some err).
End Run.

(** the task an operation is about *)
Definition about (e : rop) : option task :=
  match e with
  | Pull t | TorkMount t | Parse t | Create t | InitDirs t | Ready t | Start t | Wait t | Remove t | Begin t | End_ t _ => Some t
  | NetCreate _ | NetRemove _ | Mount_ _ | Unmount_ _ => None
  end.
(** the containers started *)
Definition started (l : list rev_) : list task := flat_map (fun p => match p with (Start t, None) => [t] | _ => [] end) l.
(** a mount without its identifier *)
Definition sans_id (m : mount) : mount := mkMount "" (m_type m) (m_source m) (m_target m) (m_opts m).
(** what the shell runtime cannot honour *)
Definition shell_supported (t : task) : Prop :=
  t_id t <> noid /\ t_mounts t = [] /\ t_entrypoint t = [] /\ t_image t = "" /\
  (forall lim, t_limits t = Some lim -> l_cpus lim = "" /\ l_memory lim = "") /\
  t_networks t = [] /\ t_registry t = None /\ t_cmd t = [] /\ t_sidecars t = [].

(* ------------------------------------------------------------------ *)
(** * Proofs *)
#[global] Opaque inherit.
Arguments bind : simpl never. Arguments inherit : simpl never. Arguments ret : simpl never. Arguments call : simpl never. Arguments mark : simpl never. Arguments new_id : simpl never.
Section Proofs.
Variable o : nat -> option string.
Variable out : nat -> string.
Variable uuid : nat -> id.

Lemma execs_app l1 l2 : execs (l1 ++ l2) = execs l1 ++ execs l2.
Proof. induction l1 as [|[[] ?] l1 IH]; cbn; rewrite ?IH; reflexivity. Qed.
Lemma begun_app l1 l2 : begun (l1 ++ l2) = begun l1 ++ begun l2. Proof. apply flat_map_app. Qed.
Lemma mounted_app l1 l2 : mounted (l1 ++ l2) = mounted l1 ++ mounted l2. Proof. apply flat_map_app. Qed.
Lemma unmounted_app l1 l2 : unmounted (l1 ++ l2) = unmounted l1 ++ unmounted l2. Proof. apply flat_map_app. Qed.
Lemma ready_app l1 l2 : ready (l1 ++ l2) = ready l1 ++ ready l2. Proof. apply flat_map_app. Qed.
Lemma removed_app l1 l2 : removed (l1 ++ l2) = removed l1 ++ removed l2. Proof. apply flat_map_app. Qed.
Lemma nets_app l1 l2 : nets (l1 ++ l2) = nets l1 ++ nets l2. Proof. apply flat_map_app. Qed.
Lemma netrems_app l1 l2 : netrems (l1 ++ l2) = netrems l1 ++ netrems l2. Proof. apply flat_map_app. Qed.

Lemma bind_inv {A B} (m : M A) (f : A -> M B) n l n' b : bind m f n = (l, n', b) ->
  exists l1 n1 a l2, m n = (l1, n1, a) /\ f a n1 = (l2, n', b) /\ l = l1 ++ l2.
Proof. unfold bind. destruct (m n) as [[l1 n1] a]. destruct (f a n1) as [[l2 n2] c] eqn:E. intros [= <- <- <-]. eauto 10. Qed.
Lemma ret_inv {A} (a b : A) n l n' : ret a n = (l, n', b) -> l = [] /\ n' = n /\ b = a.
Proof. intros [= <- <- <-]. auto. Qed.
Lemma call_inv e n l n' b : call o e n = (l, n', b) -> l = [(e, b)] /\ b = o n.
Proof. intros [= <- <- <-]. auto. Qed.
Lemma new_id_inv n l n' b : new_id uuid n = (l, n', b) -> l = [].
Proof. intros [= <- <- <-]. auto. Qed.
Lemma mark_inv e n l n' b : mark e n = (l, n', b) -> l = [(e, None)].
Proof. intros [= <- <- <-]. auto. Qed.

Ltac binv H := let l1 := fresh "l" in let n1 := fresh "n" in let a := fresh "a" in let l2 := fresh "l" in let E := fresh "E" in
  apply bind_inv in H as (l1 & n1 & a & l2 & E & H & ->).

Tactic Notation "binv_" ident(H) "as" ident(l1) ident(n1) ident(a) ident(l2) ident(E) :=
  apply bind_inv in H as (l1 & n1 & a & l2 & E & H & ->).

(** what happens inside an execution: no mounts, no networks *)
Definition quiet (l : list rev_) : Prop := execs l = [] /\ mounted l = [] /\ unmounted l = [] /\ nets l = [] /\ netrems l = [] /\ begun l = [].
Lemma quiet_app l1 l2 : quiet l1 -> quiet l2 -> quiet (l1 ++ l2).
Proof.
  intros (a & b & c & d & e & f) (a' & b' & c' & d' & e' & f'). unfold quiet.
  rewrite execs_app, mounted_app, unmounted_app, nets_app, netrems_app, begun_app, a, b, c, d, e, f, a', b', c', d', e', f'. repeat split.
Qed.
Lemma quiet_nil : quiet []. Proof. repeat split. Qed.

Lemma create_spec t n l n' e : create_container o t n = (l, n', e) -> quiet l /\ removed l = [] /\ ready l = match e with None => [t] | Some _ => [] end.
Proof.
  unfold create_container. destruct (is_noid (t_id t)).
  { intros H. apply ret_inv in H as (-> & _ & ->). repeat split. }
  intros H. do 5 (binv H; apply call_inv in E as [-> _]; destruct a; [apply ret_inv in H as (-> & _ & ->); repeat split|]).
  binv H. apply mark_inv in E as ->. apply ret_inv in H as (-> & _ & ->). repeat split.
Qed.
Lemma sidecars_spec t ss : forall n l n' r, start_sidecars o uuid t ss n = (l, n', r) -> quiet l /\ removed l = [] /\ ready l = snd r.
Proof.
  induction ss as [|s ss IH]; intros n l n' r H; cbn in H.
  { apply ret_inv in H as (-> & _ & ->). repeat split. }
  binv_ H as k1 n1 i k2 E. apply new_id_inv in E as ->. binv_ H as lc n2 ec k3 E. apply create_spec in E as (Q & Rm & Rd). destruct ec.
  { apply ret_inv in H as (-> & _ & ->). rewrite app_nil_r. cbn. auto. }
  binv_ H as ls n3 es k4 E. apply call_inv in E as [-> _]. destruct es.
  { apply ret_inv in H as (-> & _ & ->). cbn. split; [apply quiet_app; [assumption|repeat split]|].
    rewrite removed_app, ready_app, Rm, Rd. auto. }
  binv_ H as lr n4 er k5 E. apply IH in E as (Q2 & Rm2 & Rd2). apply ret_inv in H as (-> & _ & ->). rewrite app_nil_r, app_nil_l. cbn [snd].
  split; [apply quiet_app; [assumption|]; apply quiet_app; [repeat split|assumption]|].
  rewrite !removed_app, !ready_app, Rm, Rd, Rm2, Rd2. cbn. auto.
Qed.
Lemma remove_spec ts : forall n l n' u, remove_all o ts n = (l, n', u) -> quiet l /\ ready l = [] /\ removed l = ts.
Proof.
  induction ts as [|t ts IH]; intros n l n' u H; cbn in H.
  { apply ret_inv in H as (-> & _ & ->). repeat split. }
  binv H. apply call_inv in E as [-> _]. apply IH in H as (Q & A & B).
  split; [apply quiet_app; [repeat split|assumption]|]. rewrite ready_app, removed_app, A, B. auto.
Qed.

Definition quietM (l : list rev_) : Prop := mounted l = [] /\ unmounted l = [] /\ nets l = [] /\ netrems l = [].
Lemma quietM_app l1 l2 : quietM l1 -> quietM l2 -> quietM (l1 ++ l2).
Proof.
  intros (b & c & d & e) (b' & c' & d' & e'). unfold quietM.
  rewrite mounted_app, unmounted_app, nets_app, netrems_app, b, c, d, e, b', c', d', e'. repeat split.
Qed.
Lemma quiet_M l : quiet l -> quietM l. Proof. unfold quiet, quietM. tauto. Qed.

Lemma do_run_spec t n l n' t' e : do_run o out uuid t n = (l, n', (t', e)) ->
  quietM l /\ Permutation (removed l) (ready l) /\ begun l = [t] /\
  exists r, execs l = [(t, r)] /\ match r with inl s => t' = t <| t_result := s |> /\ e = None | inr err => t' = t /\ e = Some err end.
Proof.
  unfold do_run. intros H. binv_ H as k1 n1 u1 k2 E. apply mark_inv in E as ->.
  binv_ H as lc n2 a0 k3 Ec. binv_ H as lb n3 a1 k4 Eb. binv_ H as k5 n4 u2 k6 E. apply mark_inv in E as ->.
  apply ret_inv in H as (-> & _ & Et). rewrite app_nil_r.
  apply create_spec in Ec as (Q & Rm & Rd).
  assert (HH : quiet lb /\ Permutation (removed lb) (match a0 with None => [t] | Some _ => [] end ++ ready lb)).
  { destruct a0; [apply ret_inv in Eb as (-> & _ & ->); split; [apply quiet_nil|constructor]|].
    binv_ Eb as ls n5 sr m1 Es. apply sidecars_spec in Es as (Q1 & Rm1 & Rd1). binv_ Eb as lr n6 rr m2 Er.
    assert (HB : quiet lr /\ removed lr = [] /\ ready lr = []).
    { destruct (fst sr) as [e1|]; [apply ret_inv in Er as (-> & _ & ->); split; [apply quiet_nil|auto]|].
      binv_ Er as lst n7 a2 lw Est. apply call_inv in Est as [-> _]. destruct a2; [apply ret_inv in Er as (-> & _ & ->); repeat split|].
      cbv beta in Er. destruct (o n7); injection Er as <- <- <-; repeat split. }
    binv_ Eb as lrm n8 u3 m3 Erm. apply remove_spec in Erm as (Q3 & Rd3 & Rm3). binv_ Eb as lr1 n9 u4 m4 Erm. apply call_inv in Erm as [-> _].
    apply ret_inv in Eb as (-> & _ & ->).
    destruct HB as (QB & RmB & RdB).
    split; [repeat (apply quiet_app; auto); repeat split|].
    rewrite !removed_app, !ready_app, Rm1, Rd1, RmB, RdB, Rd3, Rm3. cbn.
    rewrite !app_nil_r. rewrite (Permutation_app_comm _ [t]). cbn. constructor. symmetry. apply Permutation_rev. }
  destruct HH as (Q1 & P1).
  split. { apply quietM_app; [repeat split|]. apply quietM_app; [apply quiet_M; assumption|]. apply quietM_app; [apply quiet_M; assumption|]. repeat split. }
  split. { rewrite !removed_app, !ready_app, Rm, Rd. cbn. rewrite !app_nil_r. rewrite P1. destruct a0; reflexivity. }
  split. { rewrite !begun_app. destruct Q as (_ & _ & _ & _ & _ & ->), Q1 as (_ & _ & _ & _ & _ & ->). reflexivity. }
  exists a1. rewrite !execs_app. destruct Q as (-> & _), Q1 as (-> & _). split; [reflexivity|].
  destruct a1; injection Et as -> ->; auto.
Qed.

Lemma same_def_prep (d t : task) i : same_def d (inherit t i d).
Proof. Transparent inherit. reflexivity. Opaque inherit. Qed.

Definition bracket (l : list rev_) := quietM l /\ Permutation (removed l) (ready l) /\ begun l = map fst (execs l).
Lemma bracket_app l1 l2 : bracket l1 -> bracket l2 -> bracket (l1 ++ l2).
Proof.
  intros (Q & P & B) (Q' & P' & B'). split; [apply quietM_app; assumption|]. split.
  - rewrite removed_app, ready_app. apply Permutation_app; assumption.
  - rewrite begun_app, execs_app, map_app, B, B'. reflexivity.
Qed.
Lemma bracket_nil : bracket []. Proof. repeat split. constructor. Qed.

Lemma follows_app p1 p2 x1 x2 e : follows p1 x1 None -> follows p2 x2 e -> follows (p1 ++ p2) (x1 ++ x2) e.
Proof.
  intros H. remember None as e0 eqn:E0. induction H; intros H2; cbn; [assumption| |discriminate].
  apply fo_ok; auto.
Qed.
Lemma follows_fail_app p1 p2 x err : follows p1 x (Some err) -> follows (p1 ++ p2) x (Some err).
Proof. intros H. remember (Some err) as e0 eqn:E0. induction H; [discriminate| |]; cbn; [apply fo_ok; auto|injection E0 as ->; apply fo_fail; assumption]. Qed.

Lemma run_list_spec t ts : forall n l n' e, run_list o out uuid t ts n = (l, n', e) -> bracket l /\ follows ts (execs l) e.
Proof.
  induction ts as [|p ts IH]; intros n l n' e H; cbn in H.
  { apply ret_inv in H as (-> & _ & ->). split; [apply bracket_nil|constructor]. }
  binv_ H as k1 n1 i k2 E. apply new_id_inv in E as ->. binv_ H as l n2 a l0 E. destruct a as [t' e'].
  apply do_run_spec in E as (Q & P & B & r & X & Hr).
  assert (Bk : bracket l) by (split; [assumption|]; split; [assumption|]; rewrite B, X; reflexivity).
  cbn [snd] in H. cbn [app]. destruct r as [s|err]; destruct Hr as [-> ->].
  - apply IH in H as (Bk2 & F). split; [apply bracket_app; assumption|]. rewrite execs_app, X. cbn. apply fo_ok; [apply same_def_prep|assumption].
  - apply ret_inv in H as (-> & _ & ->). rewrite app_nil_r. split; [assumption|]. rewrite X. apply fo_fail, same_def_prep.
Qed.

Definition main_result (n : nat) (ex : list (task * (string + string))) (t' : task) : Prop :=
  forall x s, nth_error ex n = Some (x, inl s) -> t_result t' = s.

Lemma follows_length p ex e : follows p ex e -> e = None -> length ex = length p.
Proof. induction 1; intros; cbn; auto; discriminate. Qed.
Lemma follows_fail_shape p ex err : follows p ex (Some err) -> (length ex <= length p)%nat /\ exists x, nth_error ex (length ex - 1) = Some (x, inr err).
Proof.
  intros H. remember (Some err) as e0 eqn:E0. induction H; [discriminate| |].
  - destruct (IHfollows E0) as (Hl & y & Hy). split; [cbn; lia|]. exists y. cbn. destruct ex; cbn in *; [discriminate|]. 
    replace (length ex - 0)%nat with (length ex) in * by lia. exact Hy.
  - injection E0 as ->. split; [cbn; lia|]. exists x. reflexivity.
Qed.

Lemma same_def_refl t : same_def t t. Proof. unfold same_def. destruct t. reflexivity. Qed.

Lemma run_sequence_spec t n l n' t' e : run_sequence o out uuid t n = (l, n', (t', e)) ->
  bracket l /\ follows (t_pre t ++ [t] ++ t_post t) (execs l) e /\ main_result (length (t_pre t)) (execs l) t'.
Proof.
  unfold run_sequence. intros H. binv_ H as l0 n1 a k1 E. apply run_list_spec in E as (Bk & F). destruct a as [err|].
  { apply ret_inv in H as (-> & _ & Et). injection Et as -> ->. rewrite app_nil_r. split; [assumption|]. split; [apply follows_fail_app; assumption|].
    intros x s Hx. destruct (follows_fail_shape _ _ _ F) as (Hl & y & Hy).
    assert (Hlt : (length (t_pre t) < length (execs l0))%nat) by (apply nth_error_Some; congruence). lia. }
  binv_ H as l1 n2 a l2 E. destruct a as [t1 e1]. apply do_run_spec in E as (Q & P & B & r & X & Hr).
  assert (Bk1 : bracket l1) by (split; [assumption|]; split; [assumption|]; rewrite B, X; reflexivity).
  pose proof (follows_length _ _ _ F eq_refl) as Hl.
  cbn [snd fst] in H. destruct r as [s|err]; destruct Hr as [-> ->].
  - binv_ H as l3 n3 a l4 E. apply run_list_spec in E as (Bk2 & F2). apply ret_inv in H as (-> & _ & Et). injection Et as -> ->. rewrite app_nil_r.
    split; [repeat (apply bracket_app; auto)|]. rewrite !execs_app, X. split.
    + apply follows_app; [assumption|]. cbn. apply fo_ok; [apply same_def_refl|assumption].
    + intros x s' Hx. rewrite <- Hl, nth_error_app2, Nat.sub_diag in Hx by lia. cbn in Hx. injection Hx as <- <-. reflexivity.
  - apply ret_inv in H as (-> & _ & Et). injection Et as -> ->. rewrite app_nil_r. split; [apply bracket_app; assumption|].
    rewrite execs_app, X. split.
    + apply follows_app; [assumption|]. cbn. apply fo_fail, same_def_refl.
    + intros x s' Hx. rewrite <- Hl, nth_error_app2, Nat.sub_diag in Hx by lia. cbn in Hx. discriminate.
Qed.

(** what a run of a container task does, with [plan] the tasks to execute *)
Definition run_spec (t : task) (l : list rev_) (t' : task) (e : option string) : Prop :=
  (** either the preparation failed and nothing was executed, or the plan was followed *)
  ((execs l = [] /\ begun l = [] /\ e <> None) \/
   (exists t0, same_def t t0 /\ t_pre t0 = t_pre t /\ t_post t0 = t_post t /\
      follows (t_pre t ++ [t0] ++ t_post t) (execs l) e /\ main_result (length (t_pre t)) (execs l) t')) /\
  (** everything begun ended *)
  begun l = map fst (execs l) /\
  (** every container that came up was removed, every mount made was undone, last first, every network removed *)
  Permutation (removed l) (ready l) /\ unmounted l = rev (mounted l) /\ netrems l = nets l.

Lemma with_mounts_spec ms : forall t done n l n' t' e,
  with_mounts o uuid t ms done (run_sequence o out uuid) n = (l, n', (t', e)) ->
  ((execs l = [] /\ begun l = [] /\ e <> None) \/
   (exists m', follows (t_pre t ++ [t <| t_mounts := m' |>] ++ t_post t) (execs l) e /\ main_result (length (t_pre t)) (execs l) t')) /\
  begun l = map fst (execs l) /\ Permutation (removed l) (ready l) /\ unmounted l = rev (mounted l) /\ netrems l = [] /\ nets l = [].
Proof.
  induction ms as [|m ms IH]; intros t done n l n' t' e H; cbn in H.
  - apply run_sequence_spec in H as (((Qm & Qu & Qn & Qr) & P & B) & F & Mr).
    split; [right; exists done; auto|]. rewrite Qm, Qu. auto.
  - binv_ H as k1 n1 i k2 E. apply new_id_inv in E as ->. binv_ H as k3 n2 a k4 E. apply call_inv in E as [-> _]. destruct a as [err|].
    + apply ret_inv in H as (-> & _ & Et). injection Et as -> ->. cbn. split; [left; repeat split; discriminate|]. repeat split; constructor.
    + binv_ H as l1 n3 a0 k5 E. destruct a0 as [t1 e1]. apply IH in E as (D & B & P & U & N1 & N2). binv_ H as k6 n4 a k7 E. apply call_inv in E as [-> _].
      apply ret_inv in H as (-> & _ & Et). injection Et as -> ->. rewrite app_nil_l, app_nil_r.
      set (mm := m <| m_id := id_text i |>) in *.
      rewrite !execs_app, !begun_app, !removed_app, !ready_app, !unmounted_app, !mounted_app, !netrems_app, !nets_app.
      cbn. rewrite !app_nil_r, ?U, ?N1, ?N2. cbn. auto 10.
Qed.

Lemma pre_of_id t0 (t : task) : same_def t t0 -> t_pre t0 = t_pre t /\ t_post t0 = t_post t.
Proof. intros ->. split; reflexivity. Qed.

(** ** docker *)
Theorem C54_docker : forall t n l n' t' e, docker_run o out uuid t n = (l, n', (t', e)) -> run_spec t l t' e.
Proof.
  intros t n l n' t' e H. unfold docker_run in H.
  destruct (t_sidecars t).
  - apply with_mounts_spec in H as ([D|(m' & F & Mr)] & B & P & U & N1 & N2).
    + split; [left; assumption|]. rewrite N1, N2. auto.
    + split; [right; exists (t <| t_mounts := m' |>); split; [destruct t; reflexivity|auto]|]. rewrite N1, N2. auto.
  - binv_ H as k0 n0 i k00 E. apply new_id_inv in E as ->. binv_ H as k1 n1 a k2 E. apply call_inv in E as [-> _]. destruct a as [err|].
    { apply ret_inv in H as (-> & _ & Et). injection Et as -> ->. cbn. split; [left; repeat split; discriminate|]. repeat split; constructor. }
    binv_ H as k3 n2 a k4 E. destruct a as [t1 e1]. apply with_mounts_spec in E as (D & B & P & U & N1 & N2). binv_ H as k5 n3 a k6 E. apply call_inv in E as [-> _].
    apply ret_inv in H as (-> & _ & Et). injection Et as -> ->. rewrite app_nil_r.
    unfold run_spec. rewrite !execs_app, !begun_app, !removed_app, !ready_app, !unmounted_app, !mounted_app, !netrems_app, !nets_app.
    cbn. rewrite !app_nil_r, ?N1, ?N2. destruct D as [D|(m' & F & Mr)].
    + split; [left; assumption|]. auto.
    + split; [right; exists (t <| t_networks := t_networks t ++ [id_text i] |> <| t_mounts := m' |>); split; [destruct t; reflexivity|auto]|]. auto.
Qed.

(** ** podman *)
Theorem C54_podman : forall t n l n' t' e, podman_run o out uuid t n = (l, n', (t', e)) -> run_spec t l t' e.
Proof.
  intros t n l n' t' e H. unfold podman_run in H.
  assert (Hr : forall s, ret (t, Some s) n = (l, n', (t', e)) -> run_spec t l t' e).
  { intros s Hs. apply ret_inv in Hs as (-> & _ & Et). injection Et as -> ->. split; [left; repeat split; discriminate|]. repeat split; constructor. }
  destruct (is_noid _); [eauto|]. destruct (String.eqb _ _); [eauto|]. destruct (String.eqb _ _); [eauto|].
  destruct (t_sidecars t); [|eauto].
  apply with_mounts_spec in H as ([D|(m' & F & Mr)] & B & P & U & N1 & N2).
  - split; [left; assumption|]. rewrite N1, N2. auto.
  - split; [right; exists (t <| t_mounts := m' |>); split; [destruct t; reflexivity|auto]|]. rewrite N1, N2. auto.
Qed.

(** ** shell *)
Lemma shell_do_run_spec t n l n' t' e : shell_do_run o out t n = (l, n', (t', e)) ->
  bracket l /\ exists r, execs l = [(t, r)] /\ match r with inl s => t' = t <| t_result := s |> /\ e = None | inr err => t' = t /\ e = Some err end.
Proof.
  unfold shell_do_run. intros H. binv_ H as k1 n1 u k2 E. apply mark_inv in E as ->. binv_ H as k3 n2 a0 k4 E. apply call_inv in E as [-> _].
  binv_ H as l1 n3 a1 k5 Eb. binv_ H as k6 n4 u2 k7 E. apply mark_inv in E as ->.
  apply ret_inv in H as (-> & _ & Et). rewrite app_nil_r.
  assert (HH : quiet l1 /\ removed l1 = [] /\ ready l1 = []).
  { destruct a0; [apply ret_inv in Eb as (-> & _ & ->); repeat split|].
    binv_ Eb as m1 n5 a2 m2 E. apply call_inv in E as [-> _]. destruct a2; [apply ret_inv in Eb as (-> & _ & ->); repeat split|].
    cbv beta in Eb. destruct (o n5); injection Eb as <- <- <-; repeat split. }
  destruct HH as ((q1 & q2 & q3 & q4 & q5 & q6) & Rm & Rd).
  split.
  - split; [|split].
    + unfold quietM. rewrite !mounted_app, !unmounted_app, !nets_app, !netrems_app, q2, q3, q4, q5. repeat split.
    + rewrite !removed_app, !ready_app, Rm, Rd. constructor.
    + rewrite !begun_app, !execs_app, q1, q6. reflexivity.
  - exists a1. rewrite !execs_app, q1. split; [reflexivity|]. destruct a1; injection Et as -> ->; auto.
Qed.
Lemma shell_list_spec ts : forall n l n' e, shell_list o out uuid ts n = (l, n', e) -> bracket l /\ follows ts (execs l) e.
Proof.
  induction ts as [|p ts IH]; intros n l n' e H; cbn in H.
  { apply ret_inv in H as (-> & _ & ->). split; [apply bracket_nil|constructor]. }
  binv_ H as k1 n1 i k2 E. apply new_id_inv in E as ->. binv_ H as l n2 a l0 E. destruct a as [t' e'].
  apply shell_do_run_spec in E as (Bk & r & X & Hr).
  assert (Sd : same_def p (p <| t_id := i |>)) by (destruct p; reflexivity).
  cbn [snd] in H. cbn [app]. destruct r as [s|err]; destruct Hr as [-> ->].
  - apply IH in H as (Bk2 & F). split; [apply bracket_app; assumption|]. rewrite execs_app, X. cbn. apply fo_ok; assumption.
  - apply ret_inv in H as (-> & _ & ->). rewrite app_nil_r. split; [assumption|]. rewrite X. apply fo_fail. assumption.
Qed.
Theorem C54_shell : forall t n l n' t' e, shell_run o out uuid t n = (l, n', (t', e)) ->
  run_spec t l t' e /\
  (shell_reject t <> None <-> (execs l = [] /\ e = shell_reject t /\ e <> None)).
Proof.
  intros t n l n' t' e H. unfold shell_run in H. destruct (shell_reject t) eqn:Er.
  { apply ret_inv in H as (-> & _ & Et). injection Et as -> ->. split; [split; [left; repeat split; discriminate|]; repeat split; constructor|].
    split; [|discriminate]. intros _. split; [reflexivity|]. split; [congruence|discriminate]. }
  assert (K : bracket l /\ follows (t_pre t ++ [t] ++ t_post t) (execs l) e /\ main_result (length (t_pre t)) (execs l) t').
  { binv_ H as l0 n1 a k1 E. apply shell_list_spec in E as (Bk & F). destruct a as [err|].
    { apply ret_inv in H as (-> & _ & Et). injection Et as -> ->. rewrite app_nil_r. split; [assumption|]. split; [apply follows_fail_app; assumption|].
      intros x s Hx. destruct (follows_fail_shape _ _ _ F) as (Hl & y & Hy).
      assert (Hlt : (length (t_pre t) < length (execs l0))%nat) by (apply nth_error_Some; congruence). lia. }
    binv_ H as l1 n2 a l2 E. destruct a as [t1 e1]. apply shell_do_run_spec in E as (Bk1 & r & X & Hr).
    pose proof (follows_length _ _ _ F eq_refl) as Hl.
    cbn [snd fst] in H. destruct r as [s|err]; destruct Hr as [-> ->].
    - binv_ H as l3 n3 a l4 E. apply shell_list_spec in E as (Bk2 & F2). apply ret_inv in H as (-> & _ & Et). injection Et as -> ->. rewrite app_nil_r.
      split; [repeat (apply bracket_app; auto)|]. rewrite !execs_app, X. split.
      + apply follows_app; [assumption|]. cbn. apply fo_ok; [apply same_def_refl|assumption].
      + intros x s' Hx. rewrite <- Hl, nth_error_app2, Nat.sub_diag in Hx by lia. cbn in Hx. injection Hx as <- <-. reflexivity.
    - apply ret_inv in H as (-> & _ & Et). injection Et as -> ->. rewrite app_nil_r. split; [apply bracket_app; assumption|].
      rewrite execs_app, X. split.
      + apply follows_app; [assumption|]. cbn. apply fo_fail, same_def_refl.
      + intros x s' Hx. rewrite <- Hl, nth_error_app2, Nat.sub_diag in Hx by lia. cbn in Hx. discriminate. }
  destruct K as (((Qm & Qu & Qn & Qr) & P & B) & F & Mr). split.
  - split; [right; exists t; split; [apply same_def_refl|auto]|]. rewrite Qm, Qu, Qn, Qr. auto.
  - split; [congruence|]. intros (_ & -> & Hne). congruence.
Qed.
End Proofs.
Print Assumptions C54_docker.
Print Assumptions C54_podman.
Print Assumptions C54_shell.

(* ------------------------------------------------------------------ *)
(** ** Mounts, networks, limits and sidecars of everything that runs *)
Section Env.
Variable o : nat -> option string.
Variable out : nat -> string.
Variable uuid : nat -> id.
Ltac binv H := let l1 := fresh "l" in let n1 := fresh "n" in let a := fresh "a" in let l2 := fresh "l" in let E := fresh "E" in
  apply bind_inv in H as (l1 & n1 & a & l2 & E & H & ->).
Tactic Notation "binv_" ident(H) "as" ident(l1) ident(n1) ident(a) ident(l2) ident(E) :=
  apply bind_inv in H as (l1 & n1 & a & l2 & E & H & ->).

Definition env_of (t x : task) : Prop := t_mounts x = t_mounts t /\ t_networks x = t_networks t /\ t_limits x = t_limits t.
Definition all_env (t : task) (l : list rev_) : Prop :=
  Forall (fun p => match about (fst p) with Some x => env_of t x | None => False end) l.
Lemma env_refl t : env_of t t. Proof. repeat split. Qed.
Lemma env_inherit t i p : env_of t (inherit t i p). Proof. Transparent inherit. repeat split. Opaque inherit. Qed.
Lemma env_trans a b c : env_of a b -> env_of b c -> env_of a c. Proof. unfold env_of. intuition congruence. Qed.
Lemma all_env_app t l1 l2 : all_env t l1 -> all_env t l2 -> all_env t (l1 ++ l2). Proof. intros. apply Forall_app. auto. Qed.
Lemma all_env_one t e r x : about e = Some x -> env_of t x -> all_env t [(e, r)].
Proof. intros H K. constructor; [cbn; rewrite H; exact K|constructor]. Qed.
Lemma all_env_nil t : all_env t []. Proof. constructor. Qed.

Lemma create_env t x n l n' e : env_of t x -> create_container o x n = (l, n', e) -> all_env t l.
Proof.
  intros Hx. unfold create_container. destruct (is_noid (t_id x)).
  { intros H. apply ret_inv in H as (-> & _ & ->). apply all_env_nil. }
  intros H. do 5 (binv H; apply call_inv in E as [-> _]; apply all_env_app; [eapply all_env_one; [reflexivity|assumption]|];
    destruct a; [apply ret_inv in H as (-> & _ & ->); apply all_env_nil|]).
  binv H. apply mark_inv in E as ->. apply ret_inv in H as (-> & _ & ->). apply all_env_app; [eapply all_env_one; [reflexivity|assumption]|apply all_env_nil].
Qed.
Lemma sidecars_env t0 t ss : env_of t0 t -> forall n l n' r, start_sidecars o uuid t ss n = (l, n', r) -> all_env t0 l /\ Forall (env_of t0) (snd r).
Proof.
  intros Ht. induction ss as [|s ss IH]; intros n l n' r H; cbn in H.
  { apply ret_inv in H as (-> & _ & ->). split; [apply all_env_nil|constructor]. }
  binv_ H as k1 n1 i k2 E. apply new_id_inv in E as ->.
  assert (Hi : env_of t0 (inherit t i s)) by (eapply env_trans; [exact Ht|apply env_inherit]).
  binv_ H as lc n2 ec k3 E. apply (create_env t0) in E; [|assumption]. destruct ec.
  { apply ret_inv in H as (-> & _ & ->). rewrite app_nil_r. split; [assumption|constructor]. }
  binv_ H as ls n3 es k4 E0. apply call_inv in E0 as [-> _].
  assert (Hs : all_env t0 [(Start (inherit t i s), es)]) by (eapply all_env_one; [reflexivity|assumption]).
  destruct es.
  { apply ret_inv in H as (-> & _ & ->). rewrite app_nil_l. split; [apply all_env_app; [assumption|apply all_env_app; [assumption|apply all_env_nil]]|constructor; [assumption|constructor]]. }
  binv_ H as lr n4 er k5 E0. apply IH in E0 as (A & B). apply ret_inv in H as (-> & _ & ->). rewrite app_nil_r, app_nil_l.
  split; [apply all_env_app; [assumption|apply all_env_app; assumption]|constructor; assumption].
Qed.
Lemma remove_env t0 ts : Forall (env_of t0) ts -> forall n l n' u, remove_all o ts n = (l, n', u) -> all_env t0 l.
Proof.
  induction 1 as [|t ts Ht Hts IH]; intros n l n' u H; cbn in H.
  { apply ret_inv in H as (-> & _ & ->). apply all_env_nil. }
  binv H. apply call_inv in E as [-> _]. apply IH in H. apply all_env_app; [eapply all_env_one; [reflexivity|assumption]|assumption].
Qed.
Lemma do_run_env t0 t n l n' r : env_of t0 t -> do_run o out uuid t n = (l, n', r) -> all_env t0 l.
Proof.
  intros Ht. unfold do_run. intros H. binv_ H as k1 n1 u1 k2 E. apply mark_inv in E as ->.
  binv_ H as lc n2 a0 k3 Ec. binv_ H as lb n3 a1 k4 Eb. binv_ H as k5 n4 u2 k6 E. apply mark_inv in E as ->.
  apply ret_inv in H as (-> & _ & Et). rewrite app_nil_r. apply (create_env t0) in Ec; [|assumption].
  apply all_env_app; [eapply all_env_one; [reflexivity|assumption]|]. apply all_env_app; [assumption|].
  apply all_env_app; [|eapply all_env_one; [reflexivity|assumption]].
  destruct a0; [apply ret_inv in Eb as (-> & _ & ->); apply all_env_nil|].
  binv_ Eb as ls n5 sr m1 Es. apply (sidecars_env t0) in Es as (A & B); [|assumption]. binv_ Eb as lr n6 rr m2 Er.
  apply all_env_app; [assumption|]. apply all_env_app.
  { destruct (fst sr) as [e1|]; [apply ret_inv in Er as (-> & _ & ->); apply all_env_nil|].
    binv_ Er as lst n7 a2 lw Est. apply call_inv in Est as [-> _]. apply all_env_app; [eapply all_env_one; [reflexivity|assumption]|].
    destruct a2; [apply ret_inv in Er as (-> & _ & ->); apply all_env_nil|].
    cbv beta in Er. destruct (o n7); injection Er as <- <- <-; (eapply all_env_one; [reflexivity|assumption]). }
  binv_ Eb as lrm n8 u3 m3 Erm. apply (remove_env t0) in Erm; [|apply Forall_rev; assumption]. apply all_env_app; [assumption|].
  binv_ Eb as lr1 n9 u4 m4 Erm1. apply call_inv in Erm1 as [-> _]. apply ret_inv in Eb as (-> & _ & ->).
  apply all_env_app; [eapply all_env_one; [reflexivity|assumption]|apply all_env_nil].
Qed.
Lemma run_list_env t0 t ts : env_of t0 t -> forall n l n' e, run_list o out uuid t ts n = (l, n', e) -> all_env t0 l.
Proof.
  intros Ht. induction ts as [|p ts IH]; intros n l n' e H; cbn in H.
  { apply ret_inv in H as (-> & _ & ->). apply all_env_nil. }
  binv_ H as k1 n1 i k2 E. apply new_id_inv in E as ->. binv_ H as l n2 a l0 E.
  apply (do_run_env t0) in E; [|eapply env_trans; [exact Ht|apply env_inherit]]. rewrite app_nil_l. apply all_env_app; [assumption|].
  destruct (snd a); [apply ret_inv in H as (-> & _ & ->); apply all_env_nil|]. eapply IH. eassumption.
Qed.
Lemma run_sequence_env t n l n' r : run_sequence o out uuid t n = (l, n', r) -> all_env t l.
Proof.
  unfold run_sequence. intros H. binv_ H as l0 n1 a k1 E. apply (run_list_env t) in E; [|apply env_refl]. apply all_env_app; [assumption|].
  destruct a; [apply ret_inv in H as (-> & _ & ->); apply all_env_nil|].
  binv_ H as l1 n2 a l2 E1. pose proof E1 as E2. apply (do_run_env t) in E1; [|apply env_refl]. apply all_env_app; [assumption|].
  destruct a as [t1 e1]. apply do_run_spec in E2 as (_ & _ & _ & r' & _ & Hr). cbn [snd fst] in H.
  destruct r' as [s|err]; destruct Hr as [-> ->]; [|apply ret_inv in H as (-> & _ & ->); apply all_env_nil].
  binv_ H as l3 n3 a l4 E3. apply (run_list_env t) in E3; [|repeat split]. apply ret_inv in H as (-> & _ & ->). rewrite app_nil_r. assumption.
Qed.

(** everything issued while the mounts are in place *)
Lemma with_mounts_env ms : forall t done n l n' r,
  with_mounts o uuid t ms done (run_sequence o out uuid) n = (l, n', r) ->
  (forall p x, In p l -> about (fst p) = Some x ->
     t_mounts x = done ++ mounted l /\ t_networks x = t_networks t /\ t_limits x = t_limits t /\ map sans_id (mounted l) = map sans_id ms) /\
  (exists k, map sans_id (mounted l) = firstn k (map sans_id ms)) /\
  (exists ks, map m_id (mounted l) = map (fun k => id_text (uuid k)) ks /\ NoDup ks /\ Forall (fun k => (n <= k)%nat) ks).
Proof.
  induction ms as [|m ms IH]; intros t done n l n' r H; cbn in H.
  - pose proof (run_sequence_env _ _ _ _ _ H) as Hen. destruct r as [t' e]. apply run_sequence_spec in H as (((Qm & _) & _) & _).
    rewrite Qm, app_nil_r. split; [|split; [exists 0%nat; reflexivity|exists []; repeat constructor]].
    intros p x Hp Hx. unfold all_env in Hen. rewrite Forall_forall in Hen. specialize (Hen p Hp). cbv beta in Hen. rewrite Hx in Hen. destruct Hen as (A & B & C). auto.
  - apply bind_inv in H as (k1 & n1 & i & k2 & E & H & ->). injection E as <- <- <-. rewrite app_nil_l.
    apply bind_inv in H as (k3 & n2 & a & k4 & E & H & ->). injection E as <- <- <-. rewrite <- ?app_comm_cons, ?app_nil_l.
    set (mm := m <| m_id := id_text (uuid n) |>) in *.
    destruct (o (S n)) as [err|] eqn:Eo.
    + apply ret_inv in H as (-> & _ & ->). cbn. split; [intros p x [<-|[]]; discriminate|]. split; [exists 0%nat; reflexivity|exists []; repeat constructor].
    + apply bind_inv in H as (l1 & n3 & a0 & k5 & E & H & ->). pose proof E as E'. apply IH in E as (A & (k & B) & (ks & C1 & C2 & C3)).
      apply bind_inv in H as (k6 & n4 & a & k7 & E & H & ->). apply call_inv in E as [-> _]. apply ret_inv in H as (-> & _ & ->).
      match goal with |- context [mounted ?L] => assert (Hm : mounted L = mm :: mounted l1) end.
      { etransitivity; [apply (mounted_app [(Mount_ mm, None)])|]. rewrite mounted_app. cbn. now rewrite app_nil_r. }
      rewrite Hm. split; [|split].
      * intros p x Hp Hx. destruct Hp as [<-|Hp]; [discriminate|]. rewrite app_nil_r in Hp. apply in_app_iff in Hp as [Hp|[<-|[]]]; [|discriminate].
        destruct (A _ _ Hp Hx) as (A1 & A2 & A3 & A4). rewrite A1, <- app_assoc. cbn [app map]. rewrite A4. auto.
      * exists (S k). cbn [map firstn]. rewrite B. reflexivity.
      * exists (n :: ks). cbn [map]. rewrite C1. split; [reflexivity|]. split.
        -- constructor; [|assumption]. intros Hin. rewrite Forall_forall in C3. apply C3 in Hin. lia.
        -- constructor; [lia|]. eapply Forall_impl; [|exact C3]. intros; cbn in *; lia.
Qed.

Lemma id_text_inj a b : id_text a = id_text b -> a = b.
Proof.
  unfold id_text. intros H. apply (f_equal NilEmpty.uint_of_string) in H. rewrite !NilEmpty.usu in H. injection H as H.
  rewrite <- (DecimalN.Unsigned.of_to a), <- (DecimalN.Unsigned.of_to b), H. reflexivity.
Qed.

(** The environment of everything a run touches: whatever container is made, started, waited for or removed (for the main
    task, a pre or post task or a sidecar) has exactly the mounts that were made, which are those of the task, in order,
    the task's own limits, and the task's networks with the one made for the run.  Mount identifiers differ. *)
Definition env_spec (t : task) (l : list rev_) : Prop :=
  (forall p x, In p l -> about (fst p) = Some x ->
     t_mounts x = mounted l /\ map sans_id (mounted l) = map sans_id (t_mounts t) /\
     t_networks x = t_networks t ++ nets l /\ t_limits x = t_limits t) /\
  (exists k, map sans_id (mounted l) = firstn k (map sans_id (t_mounts t))) /\
  ((forall i j, uuid i = uuid j -> i = j) -> NoDup (map m_id (mounted l))).
Lemma with_mounts_env_spec t ns n l n' r : nets l = [] ->
  with_mounts o uuid (t <| t_networks := t_networks t ++ ns |>) (t_mounts t) [] (run_sequence o out uuid) n = (l, n', r) ->
  (forall p x, In p l -> about (fst p) = Some x ->
     t_mounts x = mounted l /\ map sans_id (mounted l) = map sans_id (t_mounts t) /\
     t_networks x = t_networks t ++ ns /\ t_limits x = t_limits t) /\
  (exists k, map sans_id (mounted l) = firstn k (map sans_id (t_mounts t))) /\
  ((forall i j, uuid i = uuid j -> i = j) -> NoDup (map m_id (mounted l))).
Proof.
  intros Hn H. apply with_mounts_env in H as (A & B & (ks & C1 & C2 & _)). split; [|split; [assumption|]].
  - intros p x Hp Hx. destruct (A p x Hp Hx) as (A1 & A2 & A3 & A4). auto.
  - intros Hinj. rewrite C1. clear - C2 Hinj. induction C2 as [|k ks Hk Hks IH]; cbn; constructor; [|assumption].
    intros Hin. apply in_map_iff in Hin as (j & Hj & Hin). apply id_text_inj, Hinj in Hj. now subst.
Qed.
Lemma networks_nil (t : task) : t <| t_networks := t_networks t ++ [] |> = t.
Proof. rewrite app_nil_r. destruct t. reflexivity. Qed.
Theorem C54_docker_environment : forall t n l n' r, docker_run o out uuid t n = (l, n', r) ->
  env_spec t l /\ (t_sidecars t = [] -> nets l = []).
Proof.
  intros t n l n' [t' e] H. unfold docker_run in H. destruct (t_sidecars t) eqn:Es.
  - pose proof H as H2. apply with_mounts_spec in H2 as (_ & _ & _ & _ & _ & N). rewrite <- (networks_nil t) in H at 1.
    apply with_mounts_env_spec in H; [|assumption]. unfold env_spec. rewrite N. split; [exact H|reflexivity].
  - split; [|discriminate]. binv_ H as k0 n0 i k00 E. apply new_id_inv in E as ->. binv_ H as k1 n1 a k2 E. apply call_inv in E as [-> _]. destruct a as [err|].
    { apply ret_inv in H as (-> & _ & Et). cbn. split; [intros p x [<-|[]]; discriminate|]. cbn. split; [exists 0%nat; reflexivity|constructor]. }
    binv_ H as k3 n2 a k4 E. destruct a as [t1 e1]. pose proof E as E2. apply with_mounts_spec in E2 as (_ & _ & _ & _ & _ & N).
    pose proof (with_mounts_env_spec t [id_text i] _ _ _ _ N E) as (A & B & C). clear E. binv_ H as k5 n3 a k6 E. apply call_inv in E as [-> _].
    apply ret_inv in H as (-> & _ & Et). rewrite app_nil_r, app_nil_l.
    unfold env_spec. rewrite !mounted_app, !nets_app, N. cbn. rewrite app_nil_r. split; [|auto].
    intros p x [<-|Hp] Hx; [discriminate|]. apply in_app_iff in Hp as [Hp|[<-|[]]]; [|discriminate]. apply (A p x Hp Hx).
Qed.
Theorem C54_podman_environment : forall t n l n' r, podman_run o out uuid t n = (l, n', r) -> env_spec t l /\ nets l = [].
Proof.
  intros t n l n' [t' e] H. unfold podman_run in H.
  assert (Hr : forall s, ret (t, Some s) n = (l, n', (t', e)) -> env_spec t l /\ nets l = []).
  { intros s Hs. apply ret_inv in Hs as (-> & _ & Et). split; [|reflexivity]. split; [intros p x []|]. split; [exists 0%nat; reflexivity|constructor]. }
  destruct (is_noid _); [eauto|]. destruct (String.eqb _ _); [eauto|]. destruct (String.eqb _ _); [eauto|].
  destruct (t_sidecars t); [|eauto].
  pose proof H as H2. apply with_mounts_spec in H2 as (_ & _ & _ & _ & _ & N). rewrite <- (networks_nil t) in H at 1.
  apply with_mounts_env_spec in H; [|assumption]. unfold env_spec. rewrite N. split; [exact H|reflexivity].
Qed.

(** *** Sidecars *)
(** When a container is waited for, its sidecars have been started, in order, before it, and none has been removed. *)
Definition waits_ok (l : list rev_) : Prop := forall l1 x r l2, l = l1 ++ (Wait x, r) :: l2 ->
  exists l0 l1' ys, l1 = l0 ++ l1' /\ started l1' = ys ++ [x] /\ Forall2 same_def (t_sidecars x) ys /\ removed l1' = [].
Lemma started_app l1 l2 : started (l1 ++ l2) = started l1 ++ started l2. Proof. apply flat_map_app. Qed.
Definition no_wait (l : list rev_) : Prop := Forall (fun p => match fst p with Wait _ => False | _ => True end) l.
Lemma no_wait_ok l : no_wait l -> waits_ok l.
Proof. intros H l1 x r l2 ->. apply Forall_app in H as [_ H]. inversion H; subst. cbn in *. contradiction. Qed.
Lemma split_app {A} (a b c d : list A) (x : A) : a ++ b = c ++ x :: d ->
  (exists e, a = c ++ x :: e /\ d = e ++ b) \/ (exists e, c = a ++ e /\ b = e ++ x :: d).
Proof.
  revert c. induction a as [|y a IH]; intros c H; cbn in H; [right; exists c; auto|].
  destruct c as [|z c]; cbn in H; injection H as -> H.
  - left. exists a. auto.
  - apply IH in H as [(e & -> & ->)|(e & -> & ->)]; [left|right]; exists e; auto.
Qed.
Lemma waits_app a b : waits_ok a -> waits_ok b -> waits_ok (a ++ b).
Proof.
  intros Ha Hb l1 x r l2 H. apply split_app in H as [(e & -> & ->)|(e & -> & ->)].
  - eapply Ha. reflexivity.
  - destruct (Hb _ _ _ _ eq_refl) as (l0 & l1' & ys & -> & A & B & C). exists (a ++ l0), l1', ys. rewrite app_assoc. auto.
Qed.
Lemma no_wait_app a b : no_wait a -> no_wait b -> no_wait (a ++ b). Proof. intros. apply Forall_app. auto. Qed.
Ltac nw1 := (constructor; [exact Logic.I|constructor]).
Lemma create_nowait x n l n' e : create_container o x n = (l, n', e) -> no_wait l /\ started l = [].
Proof.
  unfold create_container. destruct (is_noid (t_id x)).
  { intros H. apply ret_inv in H as (-> & _ & ->). split; constructor. }
  intros H. do 5 (binv H; apply call_inv in E as [-> _]; destruct a; [apply ret_inv in H as (-> & _ & ->); split; [repeat (apply no_wait_app; [nw1|]); constructor|reflexivity]|]).
  binv H. apply mark_inv in E as ->. apply ret_inv in H as (-> & _ & ->). split; [repeat (apply no_wait_app; [nw1|]); constructor|reflexivity].
Qed.
Lemma sidecars_nowait t ss : forall n l n' r, start_sidecars o uuid t ss n = (l, n', r) ->
  no_wait l /\ (fst r = None -> started l = snd r /\ Forall2 same_def ss (snd r)).
Proof.
  induction ss as [|s ss IH]; intros n l n' r H; cbn in H.
  { apply ret_inv in H as (-> & _ & ->). split; [constructor|]. intros _. split; [reflexivity|constructor]. }
  binv_ H as k1 n1 i k2 E. apply new_id_inv in E as ->. binv_ H as lc n2 ec k3 E. apply create_nowait in E as [E Sc].
  destruct ec; [apply ret_inv in H as (-> & _ & ->); rewrite app_nil_r; split; [assumption|discriminate]|].
  binv_ H as ls n3 es k4 E0. apply call_inv in E0 as [-> _].
  destruct es; [apply ret_inv in H as (-> & _ & ->); rewrite app_nil_l; split; [apply no_wait_app; [assumption|]; nw1|discriminate]|].
  binv_ H as lr n4 er k5 E0. apply IH in E0 as (A & B). apply ret_inv in H as (-> & _ & ->). rewrite app_nil_r, app_nil_l.
  split; [apply no_wait_app; [assumption|]; apply no_wait_app; [nw1|assumption]|]. cbn [fst snd]. intros Hn. destruct (B Hn) as [B1 B2].
  rewrite !started_app, Sc, B1. cbn. split; [reflexivity|]. constructor; [apply same_def_prep|assumption].
Qed.
Lemma remove_nowait ts : forall n l n' u, remove_all o ts n = (l, n', u) -> no_wait l.
Proof.
  induction ts as [|t ts IH]; intros n l n' u H; cbn in H; [apply ret_inv in H as (-> & _ & ->); constructor|].
  binv H. apply call_inv in E as [-> _]. apply no_wait_app; [nw1|]. eapply IH. eassumption.
Qed.
Lemma do_run_waits t n l n' r : do_run o out uuid t n = (l, n', r) -> waits_ok l.
Proof.
  unfold do_run. intros H. binv_ H as k1 n1 u1 k2 E. apply mark_inv in E as ->.
  binv_ H as lc n2 a0 k3 Ec. binv_ H as lb n3 a1 k4 Eb. binv_ H as k5 n4 u2 k6 E. apply mark_inv in E as ->.
  apply ret_inv in H as (-> & _ & Et). rewrite app_nil_r. pose proof Ec as Ec'. apply create_nowait in Ec as [Ec Sc].
  apply waits_app; [apply no_wait_ok; nw1|].
  apply waits_app; [apply no_wait_ok; assumption|]. apply waits_app; [|apply no_wait_ok; nw1].
  destruct a0; [apply ret_inv in Eb as (-> & _ & ->); apply no_wait_ok; constructor|].
  binv_ Eb as ls n5 sr m1 Es. pose proof Es as Es'. apply sidecars_nowait in Es as (A & B). apply sidecars_spec in Es' as (_ & Rs & _). binv_ Eb as lr n6 rr m2 Er.
  rewrite app_assoc. apply waits_app.
  2:{ binv_ Eb as lrm n8 u3 m3 Erm. apply remove_nowait in Erm. binv_ Eb as lr1 n9 u4 m4 Erm1. apply call_inv in Erm1 as [-> _]. apply ret_inv in Eb as (-> & _ & ->).
      apply no_wait_ok, no_wait_app; [assumption|]. nw1. }
  destruct (fst sr) as [e1|]; [apply ret_inv in Er as (-> & _ & ->); rewrite app_nil_r; apply no_wait_ok; assumption|].
  destruct (B eq_refl) as [B1 B2].
  binv_ Er as lst n7 a2 lw Est. apply call_inv in Est as [-> _].
  destruct a2; [apply ret_inv in Er as (-> & _ & ->); apply no_wait_ok, no_wait_app; [assumption|nw1]|].
  assert (Hlw : lw = [(Wait t, o n7)]) by (cbv beta in Er; destruct (o n7); injection Er as <- <- <-; reflexivity). subst lw.
  intros l1 x r0 l2 H. rewrite app_assoc in H. apply split_app in H as [(e & H & _)|(e & -> & H)].
  { exfalso. assert (K : no_wait (ls ++ [(Start t, None)])) by (apply no_wait_app; [assumption|nw1]). rewrite H in K.
    apply Forall_app in K as [_ K]. inversion K; subst. cbn in *. contradiction. }
  destruct e as [|y e]; [|destruct e; cbn in H; discriminate H]. cbn in H. injection H as <- Hr0 <-. rewrite app_nil_r.
  exists [], (ls ++ [(Start t, None)]), (snd sr). split; [reflexivity|]. rewrite started_app, removed_app, Rs, B1. cbn. auto.
Qed.
Lemma run_list_waits t ts : forall n l n' e, run_list o out uuid t ts n = (l, n', e) -> waits_ok l.
Proof.
  induction ts as [|p ts IH]; intros n l n' e H; cbn in H; [apply ret_inv in H as (-> & _ & ->); apply no_wait_ok; constructor|].
  binv_ H as k1 n1 i k2 E. apply new_id_inv in E as ->. binv_ H as l n2 a l0 E. apply do_run_waits in E. rewrite app_nil_l. apply waits_app; [assumption|].
  destruct (snd a); [apply ret_inv in H as (-> & _ & ->); apply no_wait_ok; constructor|]. eapply IH. eassumption.
Qed.
Lemma run_sequence_waits t n l n' r : run_sequence o out uuid t n = (l, n', r) -> waits_ok l.
Proof.
  unfold run_sequence. intros H. binv_ H as l0 n1 a k1 E. apply run_list_waits in E. apply waits_app; [assumption|].
  destruct a; [apply ret_inv in H as (-> & _ & ->); apply no_wait_ok; constructor|].
  binv_ H as l1 n2 a l2 E1. apply do_run_waits in E1. apply waits_app; [assumption|].
  destruct (snd a); [apply ret_inv in H as (-> & _ & ->); apply no_wait_ok; constructor|].
  binv_ H as l3 n3 b l4 E3. apply run_list_waits in E3. apply ret_inv in H as (-> & _ & ->). rewrite app_nil_r. assumption.
Qed.
Lemma with_mounts_waits ms : forall t done n l n' r, with_mounts o uuid t ms done (run_sequence o out uuid) n = (l, n', r) -> waits_ok l.
Proof.
  induction ms as [|m ms IH]; intros t done n l n' r H; cbn in H; [eapply run_sequence_waits; eassumption|].
  binv_ H as k1 n1 i k2 E. apply new_id_inv in E as ->. binv_ H as k3 n2 a k4 E. apply call_inv in E as [-> _].
  rewrite app_nil_l. apply waits_app; [apply no_wait_ok; nw1|]. destruct a; [apply ret_inv in H as (-> & _ & ->); apply no_wait_ok; constructor|].
  binv_ H as l1 n3 a0 k5 E. apply IH in E. apply waits_app; [assumption|]. binv_ H as k6 n4 a k7 E0. apply call_inv in E0 as [-> _].
  apply ret_inv in H as (-> & _ & ->). apply no_wait_ok. nw1.
Qed.
Theorem C54_sidecars : forall t n l n' r, docker_run o out uuid t n = (l, n', r) -> waits_ok l.
Proof.
  intros t n l n' r H. unfold docker_run in H. destruct (t_sidecars t); [eapply with_mounts_waits; eassumption|].
  binv_ H as k0 n0 i k00 E. apply new_id_inv in E as ->. binv_ H as k1 n1 a k2 E. apply call_inv in E as [-> _]. rewrite app_nil_l.
  apply waits_app; [apply no_wait_ok; nw1|]. destruct a; [apply ret_inv in H as (-> & _ & ->); apply no_wait_ok; constructor|].
  binv_ H as k3 n2 a k4 E. apply with_mounts_waits in E. apply waits_app; [assumption|].
  binv_ H as k5 n3 b k6 E0. apply call_inv in E0 as [-> _]. apply ret_inv in H as (-> & _ & ->). apply no_wait_ok. nw1.
Qed.

(** The shell runtime refuses exactly the tasks asking for something it cannot honour, and then does nothing. *)
Theorem C54_shell_refuses : forall t n l n' r, shell_run o out uuid t n = (l, n', r) ->
  (~ shell_supported t -> l = [] /\ fst r = t /\ snd r <> None) /\
  (shell_supported t -> (exists x, In x (map fst (execs l)) /\ same_def (hd t (t_pre t)) x)).
Proof.
  intros t n l n' r H.
  assert (Hs : shell_reject t = None <-> shell_supported t).
  { unfold shell_reject, shell_supported, is_noid.
    destruct (N.eqb_spec (t_id t) 0%N) as [E|E]; [split; [discriminate|intros (A & _); contradiction]|].
    destruct (t_mounts t); cbn [negb]; [|split; [discriminate|intros (_ & A & _); discriminate]].
    destruct (t_entrypoint t); cbn [negb]; [|split; [discriminate|intros (_ & _ & A & _); discriminate]].
    destruct (String.eqb_spec (t_image t) ""); cbn [negb]; [|split; [discriminate|intros (_ & _ & _ & A & _); contradiction]].
    destruct (t_limits t) as [lim|].
    { destruct (String.eqb_spec (l_cpus lim) "") as [Ec|Ec]; cbn [negb orb]; [|split; [discriminate|intros (_ & _ & _ & _ & A & _); destruct (A _ eq_refl); contradiction]].
      destruct (String.eqb_spec (l_memory lim) "") as [Em|Em]; cbn [negb orb]; [|split; [discriminate|intros (_ & _ & _ & _ & A & _); destruct (A _ eq_refl); contradiction]].
      destruct (t_networks t); cbn [negb]; [|split; [discriminate|intros (_ & _ & _ & _ & _ & A & _); discriminate]].
      destruct (t_registry t); [split; [discriminate|intros (_ & _ & _ & _ & _ & _ & A & _); discriminate]|].
      destruct (t_cmd t); cbn [negb]; [|split; [discriminate|intros (_ & _ & _ & _ & _ & _ & _ & A & _); discriminate]].
      destruct (t_sidecars t); cbn [negb]; [|split; [discriminate|intros (_ & _ & _ & _ & _ & _ & _ & _ & A); discriminate]].
      split; [|reflexivity]. intros _. repeat match goal with |- _ /\ _ => split end; auto. intros ? [= <-]; auto. }
    destruct (t_networks t); cbn [negb]; [|split; [discriminate|intros (_ & _ & _ & _ & _ & A & _); discriminate]].
    destruct (t_registry t); [split; [discriminate|intros (_ & _ & _ & _ & _ & _ & A & _); discriminate]|].
    destruct (t_cmd t); cbn [negb]; [|split; [discriminate|intros (_ & _ & _ & _ & _ & _ & _ & A & _); discriminate]].
    destruct (t_sidecars t); cbn [negb]; [|split; [discriminate|intros (_ & _ & _ & _ & _ & _ & _ & _ & A); discriminate]].
    split; [|reflexivity]. intros _. repeat match goal with |- _ /\ _ => split end; auto; discriminate. }
  unfold shell_run in H. destruct (shell_reject t) eqn:Er.
  { apply ret_inv in H as (-> & _ & ->). split; [intros _; repeat split; discriminate|]. intros A. apply Hs in A. discriminate. }
  split; [intros A; exfalso; apply A, Hs; reflexivity|]. intros _.
  binv_ H as l0 n1 a k1 E. destruct (t_pre t) as [|p ps]; cbn [hd].
  - cbn in E. apply ret_inv in E as (-> & _ & ->). binv_ H as l1 n2 a l2 E. destruct a as [t1 e1]. apply shell_do_run_spec in E as (_ & r' & X & _).
    exists t. rewrite app_nil_l, execs_app, X. split; [left; reflexivity|apply same_def_refl].
  - cbn in E. binv_ E as k3 n3 i k4 E1. apply new_id_inv in E1 as ->. binv_ E as l1 n2 b l2 E1. destruct b as [t1 e1]. apply shell_do_run_spec in E1 as (_ & r' & X & _).
    exists (p <| t_id := i |>). rewrite app_nil_l, !execs_app, X. split; [left; reflexivity|]. destruct p; reflexivity.
Qed.
End Env.
Print Assumptions C54_docker_environment.
Print Assumptions C54_podman_environment.
Print Assumptions C54_sidecars.
Print Assumptions C54_shell_refuses.

(** The two readings of [follows]: success means everything was executed and succeeded; failure means a prefix was
    executed whose last, and only last, execution failed, with that error. *)
Theorem C54_follows : forall plan ex e, follows plan ex e ->
  match e with
  | None => length ex = length plan /\ Forall (fun x => exists s, snd x = inl s) ex
  | Some err => exists done x rest, ex = done ++ [(x, inr err)] /\ Forall (fun x => exists s, snd x = inl s) done /\
                                    (length done + 1 + length rest = length plan)%nat /\ skipn (length done + 1) plan = rest
  end.
Proof.
  induction 1 as [|d x s plan ex e Hd H IH|d x err plan Hd].
  - split; [reflexivity|constructor].
  - destruct e as [err|].
    + destruct IH as (done & y & rest & -> & Hf & Hl & Hs). exists ((x, inl s) :: done), y, rest. cbn.
      split; [reflexivity|]. split; [constructor; [cbn; eauto|assumption]|]. split; [lia|]. replace (length done + 1)%nat with (S (length done)) in * by lia. exact Hs.
    + destruct IH as [Hl Hf]. split; [cbn; lia|constructor; [cbn; eauto|assumption]].
  - exists [], x, plan. cbn. split; [reflexivity|]. split; [constructor|]. split; [lia|reflexivity].
Qed.
Print Assumptions C54_follows.

(** Not everything is cleaned up: if creating the container fails after its private volume was made (an invalid limit
    is enough), that volume is never removed. *)
Theorem C54_torkdir_leak_refuted : exists o out uuid t, forall l n' r, docker_run o out uuid t 0%nat = (l, n', r) ->
  torkdirs l = 1%nat /\ removed l = [] /\ unmounted l = [] /\ snd r = Some "invalid CPUs value".
Proof.
  set (t := mkTask 7%N 3%N 0%N 1 "n" "" TRunning None None None None None [] [] "" "ubuntu" None [] []
    "default" 0 "" [] [] [] [] [] 0%N None (Some (mkLimits "x" "")) "" "" "" "" None None None "" [] "" 0 0 None).
  exists (fun n => match n with 2%nat => Some "invalid CPUs value" | _ => None end), (fun _ => ""), (fun n => N.of_nat n), t.
  intros l n' r H. vm_compute in H. injection H as <- <- <-. repeat split.
Qed.
Print Assumptions C54_torkdir_leak_refuted.

(** a run with one pre task, one post task, a sidecar and a mount, all succeeding; and one whose main task fails *)
Definition rt_mk i run pre post side ms := mkTask i 3%N 0%N 1 run "" TRunning None None None None None [] [] run "ubuntu" None [] []
    "default" 0 "" pre post side ms [] 0%N None None "" "" "" "" None None None "" [] "" 0 0 None.
Definition rt_ex := rt_mk 7%N "main" [rt_mk 0%N "pre" [] [] [] []] [rt_mk 0%N "post" [] [] [] []] [rt_mk 0%N "side" [] [] [] []] [mkMount "" "volume" "" "/x" []].
#[local] Transparent inherit.
Example C54_nonvacuous :
  let '(l, _, (t', e)) := docker_run (fun _ => None) (fun n => if (n <? 30)%nat then "r" else "late") (fun n => N.of_nat n + 100)%N rt_ex 0%nat in
  map (fun x => (t_run (fst x), snd x)) (execs l) = [("pre", inl "r"); ("main", inl "r"); ("post", inl "late")] /\ t_result t' = "r" /\ e = None /\
  length (removed l) = 4%nat /\ length (unmounted l) = 1%nat /\ length (netrems l) = 1%nat.
Proof. vm_compute. auto 10. Qed.
Example C54_nonvacuous_fail :
  let '(l, _, (t', e)) := docker_run (fun n => if (n =? 20)%nat then Some "boom" else None) (fun n => "r") (fun n => N.of_nat n + 100)%N rt_ex 0%nat in
  map (fun x => (t_run (fst x), snd x)) (execs l) = [("pre", inl "r"); ("main", inr "boom")] /\ e = Some "boom" /\ length (netrems l) = 1%nat.
Proof. vm_compute. auto 10. Qed.
