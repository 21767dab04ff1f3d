(** C92: the volumes of a task.  runtime/docker/volume.go:27-53, runtime/podman/volume.go:18-32 (with os.MkdirTemp: a new
    directory), on top of the mounts of a run (Runtime.v, C54) and of the container's configuration (Container.v, C74).
    Simplified: a volume's content is the list of the pieces of data written to it; volume options are not modelled; one engine
    (or, for Podman, one host's directory for temporary files) shared by all tasks and by other programs. *)
From Coq Require Import Permutation DecimalString DecimalN.
From Verif Require Import Types Container Runtime.
Open Scope string_scope.
Open Scope list_scope.

(* ------------------------------------------------------------------ *)
(** * Specification *)
(** What happens to the volumes of an engine: mounting number [r] is asked for by some task, which gives it as [m], and drawing
    the name [name]; a container of that task writes a piece of data to it; it is unmounted; another program puts data into the
    volume [name], creating it if there is none, or removes it.  The booleans tell which of the calls to the engine succeed. *)
Inductive kind := Docker | Podman.
Inductive vev :=
| VMount (r : nat) (k : kind) (m : mount) (name : string) (created readable : bool)
| VWrite (r : nat) (data : string)
| VUnmount (r : nat) (k : kind) (listed removed : bool)
| OPut (name data : string)
| ORemove (name : string).
(** the data written through mounting [r] *)
Definition written (r : nat) (h : list vev) : list string := flat_map (fun e => match e with VWrite r' d => if Nat.eqb r' r then [d] else [] | _ => [] end) h.
(** what other programs made of the volume [n]: [None] if there is none ([h]: latest first) *)
Fixpoint others (n : string) (h : list vev) : option (list string) :=
  match h with
  | [] => None
  | OPut n' d :: h => if String.eqb n' n then Some (match others n h with Some c => c | None => [] end ++ [d]) else others n h
  | ORemove n' :: h => if String.eqb n' n then None else others n h
  | _ :: h => others n h
  end.
(** the names drawn; the mountings asked for; the names other programs use *)
Definition drawn (h : list vev) : list string := flat_map (fun e => match e with VMount _ _ _ n _ _ => [n] | _ => [] end) h.
Definition asked (h : list vev) : list nat := flat_map (fun e => match e with VMount r _ _ _ _ _ => [r] | _ => [] end) h.
Definition others_names (h : list vev) : list string := flat_map (fun e => match e with OPut n _ => [n] | ORemove n => [n] | _ => [] end) h.
(** the names drawn are new ones: nobody else uses them *)
Definition fresh (h : list vev) : Prop := NoDup (drawn h) /\ NoDup (asked h) /\ forall n, In n (drawn h) -> ~ In n (others_names h).

(* ------------------------------------------------------------------ *)
(** * Model *)
Definition vols := list (string * list string).
Fixpoint vget (n : string) (l : vols) : option (list string) :=
  match l with [] => None | (n', c) :: l => if String.eqb n' n then Some c else vget n l end.
Definition vdel (n : string) (l : vols) : vols := filter (fun p => negb (String.eqb (fst p) n)) l.
Definition vput (n : string) (c : list string) (l : vols) : vols := (n, c) :: vdel n l.
(** the engine's filter by name: the names that contain the text *)
Fixpoint contains (s n : string) : bool := String.prefix s n || match n with EmptyString => false | String _ n' => contains s n' end.
(** the mount with its source changed *)
Definition with_source (m : mount) (src : string) : mount := mkMount (m_id m) (m_type m) src (m_target m) (m_opts m).
(** docker/volume.go:27-37: creating a volume that exists leaves it as it is *)
Definition docker_mount (m : mount) (name : string) (created : bool) (v : vols) : vols * mount * option string :=
  let m := with_source m name in
  if created then (match vget name v with Some _ => v | None => vput name [] v end, m, None) else (v, m, Some "error creating the volume").
(** docker/volume.go:39-53 *)
Definition docker_unmount (m : mount) (listed removed : bool) (v : vols) : vols * option string :=
  if negb listed then (v, Some "error listing the volumes")
  else if negb (existsb (fun p => contains (m_source m) (fst p)) v) then (v, Some ("unknown volume: " ++ m_source m)%string)
  else if negb removed then (v, Some "error removing the volume")
  else (vdel (m_source m) v, None).
(** podman/volume.go:18-28: [created]: os.MkdirTemp, [readable]: os.Chmod *)
Definition podman_mount (m : mount) (name : string) (created readable : bool) (v : vols) : vols * mount * option string :=
  if negb created then (v, m, Some "failed to create temporary directory")
  else if negb readable then (vput name [] v, m, Some "failed to chmod temporary directory")
  else (vput name [] v, with_source m name, None).
(** podman/volume.go:30-32 *)
Definition podman_unmount (m : mount) (removed : bool) (v : vols) : vols * option string :=
  if removed then (vdel (m_source m) v, None) else (v, Some "error removing the directory").

(** the engine and the mounts as the tasks know them: those mounted without an error *)
Record vstate := mkV { vs_vols : vols; vs_mounts : list (nat * mount) }.
Definition v0 : vstate := mkV [] [].
Fixpoint mount_of (r : nat) (l : list (nat * mount)) : option mount := match l with [] => None | (r', m) :: l => if Nat.eqb r' r then Some m else mount_of r l end.
Definition unmount_of (r : nat) (l : list (nat * mount)) : list (nat * mount) := filter (fun p => negb (Nat.eqb (fst p) r)) l.
(** the volume a container with this mount uses is the one tcontainer.go:59-86 tells the engine to *)
Definition volume_used (m : mount) : string := match mount_conf m with inr (MVolume, src, _) => src | _ => "" end.
Definition vstep (s : vstate) (e : vev) : option vstate :=
  match e with
  | VMount r k m name created readable =>
      if String.eqb (m_type m) "volume" && negb (String.eqb (m_target m) "") then
        let '(v, m, err) := match k with Docker => docker_mount m name created (vs_vols s) | Podman => podman_mount m name created readable (vs_vols s) end in
        Some (mkV v (match err with None => (r, m) :: vs_mounts s | Some _ => vs_mounts s end))
      else None
  | VWrite r d =>
      match mount_of r (vs_mounts s) with
      | None => None
      | Some m => match vget (volume_used m) (vs_vols s) with
                  | Some c => Some (mkV (vput (volume_used m) (c ++ [d]) (vs_vols s)) (vs_mounts s))
                  | None => None
                  end
      end
  | VUnmount r k listed removed =>
      match mount_of r (vs_mounts s) with
      | None => None
      | Some m => let '(v, err) := match k with Docker => docker_unmount m listed removed (vs_vols s) | Podman => podman_unmount m removed (vs_vols s) end in
                  Some (mkV v (unmount_of r (vs_mounts s)))
      end
  | OPut n d => Some (mkV (vput n (match vget n (vs_vols s) with Some c => c | None => [] end ++ [d]) (vs_vols s)) (vs_mounts s))
  | ORemove n => Some (mkV (vdel n (vs_vols s)) (vs_mounts s))
  end.
Inductive vruns : list vev -> vstate -> Prop :=
| vr_nil : vruns [] v0
| vr_step h s e s' : vruns h s -> vstep s e = Some s' -> vruns (h ++ [e]) s'.
(** mounting [r] is mounted: it was mounted without an error and not unmounted since *)
Definition is_mounted (s : vstate) (r : nat) (m : mount) : Prop := mount_of r (vs_mounts s) = Some m.

(* ------------------------------------------------------------------ *)
(** * Proofs *)
Lemma vget_del n n' l : vget n (vdel n' l) = if String.eqb n' n then None else vget n l.
Proof.
  induction l as [|(a, c) l IH]; cbn [vdel filter vget]; [destruct (String.eqb n' n); reflexivity|]. fold (vdel n' l). cbn [fst].
  destruct (String.eqb_spec a n') as [->|N]; cbn [negb].
  - rewrite IH. destruct (String.eqb_spec n' n) as [->|N2]; reflexivity.
  - cbn [vget]. rewrite IH. destruct (String.eqb_spec a n) as [->|N2]; [|reflexivity]. destruct (String.eqb_spec n' n) as [E|_]; [congruence|reflexivity].
Qed.
Lemma vget_put n n' c l : vget n (vput n' c l) = if String.eqb n' n then Some c else vget n l.
Proof. cbn [vput vget]. rewrite vget_del. destruct (String.eqb n' n); reflexivity. Qed.
Lemma prefix_self s : String.prefix s s = true.
Proof. induction s as [|a s IH]; [reflexivity|]. cbn. destruct (Ascii.ascii_dec a a); [exact IH|contradiction]. Qed.
Lemma contains_self s : contains s s = true.
Proof. destruct s as [|a s]; [reflexivity|]. cbn [contains]. rewrite prefix_self. reflexivity. Qed.
Lemma vget_in n c l : vget n l = Some c -> In (n, c) l.
Proof. induction l as [|(a, c') l IH]; cbn; [discriminate|]. destruct (String.eqb_spec a n) as [->|_]; [intros [= ->]; now left|auto]. Qed.
Lemma mount_of_in r m l : mount_of r l = Some m -> In (r, m) l.
Proof. induction l as [|(a, c') l IH]; cbn; [discriminate|]. destruct (Nat.eqb_spec a r) as [->|_]; [intros [= ->]; now left|auto]. Qed.
Lemma mount_of_unmount r r' l : mount_of r (unmount_of r' l) = if Nat.eqb r' r then None else mount_of r l.
Proof.
  induction l as [|(a, c) l IH]; cbn [unmount_of filter mount_of]; [destruct (Nat.eqb r' r); reflexivity|]. fold (unmount_of r' l). cbn [fst].
  destruct (Nat.eqb_spec a r') as [->|N]; cbn [negb].
  - rewrite IH. destruct (Nat.eqb_spec r' r) as [->|N2]; reflexivity.
  - cbn [mount_of]. rewrite IH. destruct (Nat.eqb_spec a r) as [->|N2]; [|reflexivity]. destruct (Nat.eqb_spec r' r) as [E|_]; [congruence|reflexivity].
Qed.
Lemma others_app n h e : others n (rev (h ++ [e])) = match e with
  | OPut n' d => if String.eqb n' n then Some (match others n (rev h) with Some c => c | None => [] end ++ [d]) else others n (rev h)
  | ORemove n' => if String.eqb n' n then None else others n (rev h)
  | _ => others n (rev h) end.
Proof. rewrite rev_unit. destruct e; reflexivity. Qed.
Lemma written_app r h e : written r (h ++ [e]) = written r h ++ match e with VWrite r' d => if Nat.eqb r' r then [d] else [] | _ => [] end.
Proof. unfold written. rewrite flat_map_app. cbn. rewrite app_nil_r. reflexivity. Qed.
Lemma drawn_app h e : drawn (h ++ [e]) = drawn h ++ match e with VMount _ _ _ n _ _ => [n] | _ => [] end.
Proof. unfold drawn. rewrite flat_map_app. cbn. rewrite app_nil_r. reflexivity. Qed.
Lemma asked_app h e : asked (h ++ [e]) = asked h ++ match e with VMount r _ _ _ _ _ => [r] | _ => [] end.
Proof. unfold asked. rewrite flat_map_app. cbn. rewrite app_nil_r. reflexivity. Qed.
Lemma onames_app h e : others_names (h ++ [e]) = others_names h ++ match e with OPut n _ => [n] | ORemove n => [n] | _ => [] end.
Proof. unfold others_names. rewrite flat_map_app. cbn. rewrite app_nil_r. reflexivity. Qed.
Lemma nodup_prefix {A} (l l' : list A) : NoDup (l ++ l') -> NoDup l.
Proof.
  induction l as [|x l IH]; intros H; [constructor|]. cbn in H. inversion H as [|? ? N1 N2]; subst. constructor; [|auto]. intros Hi. apply N1. apply in_or_app. now left.
Qed.
Lemma fresh_prefix h e : fresh (h ++ [e]) -> fresh h.
Proof.
  intros (A & B & C). rewrite drawn_app in A, C. rewrite asked_app in B. rewrite onames_app in C. split; [|split].
  - apply nodup_prefix in A. exact A.
  - apply nodup_prefix in B. exact B.
  - intros n Hn Ho. apply (C n); apply in_or_app; now left.
Qed.
Lemma others_none n h : ~ In n (others_names h) -> others n (rev h) = None.
Proof.
  induction h as [|e h IH] using rev_ind; [reflexivity|]. rewrite onames_app, others_app. intros N.
  assert (N1 : ~ In n (others_names h)) by (intros H; apply N; apply in_or_app; now left). rewrite IH by exact N1.
  destruct e as [? ? ? ? ? ?|? ?|? ? ? ?|n' d|n']; try reflexivity; (destruct (String.eqb_spec n' n) as [->|_]; [|reflexivity]); exfalso; apply N; apply in_or_app; right; now left.
Qed.
Lemma nodup_snoc {A} (l : list A) x : NoDup (l ++ [x]) -> ~ In x l.
Proof. intros H. apply NoDup_remove_2 in H. now rewrite app_nil_r in H. Qed.

Lemma fst_unique (l : list (nat * mount)) : NoDup (map fst l) -> forall r m m', In (r, m) l -> In (r, m') l -> m = m'.
Proof.
  induction l as [|(r0, m0) l IH]; intros N r m m' H H'; [contradiction|]. cbn in N. inversion N as [|? ? N1 N2]; subst.
  assert (K : forall x, In (r0, x) l -> False) by (intros x Hx; apply N1; apply in_map_iff; exists (r0, x); auto).
  destruct H as [H|H], H' as [H'|H']; [congruence| | |eauto]; exfalso; [injection H as -> ->|injection H' as -> ->]; eauto.
Qed.
Record vinv (h : list vev) (s : vstate) : Prop := mkVInv {
  (* a mounted mount is as the task gave it, but for the source, which is one of the names drawn, and its volume holds what was written through it *)
  vi_mounts : forall r m, In (r, m) (vs_mounts s) -> exists k m0 a b, In (VMount r k m0 (m_source m) a b) h /\ m = with_source m0 (m_source m) /\
              m_type m0 = "volume" /\ m_target m0 <> "";
  vi_data : forall r m, In (r, m) (vs_mounts s) -> vget (m_source m) (vs_vols s) = Some (written r h);
  vi_one : NoDup (map fst (vs_mounts s));
  vi_sep : forall r m r' m', In (r, m) (vs_mounts s) -> In (r', m') (vs_mounts s) -> m_source m = m_source m' -> r = r';
  vi_other : forall n, ~ In n (drawn h) -> vget n (vs_vols s) = others n (rev h) }.
Lemma used_volume m m0 src : m = with_source m0 src -> m_type m0 = "volume" -> m_target m0 <> "" -> volume_used m = src.
Proof. intros -> T G. unfold volume_used, mount_conf. cbn. rewrite T. cbn. destruct (String.eqb_spec (m_target m0) ""); [contradiction|reflexivity]. Qed.
Lemma vmount_drawn r k m n a b h : In (VMount r k m n a b) h -> In n (drawn h) /\ In r (asked h).
Proof. intros H. split; apply in_flat_map; eexists; (split; [exact H|now left]). Qed.
Lemma mounted_asked r h s : vruns h s -> forall m, mount_of r (vs_mounts s) = Some m -> In r (asked h).
Proof.
  induction 1 as [|h s e s' H IH Hs]; [discriminate|]. intros m M. rewrite asked_app. apply in_or_app.
  destruct e as [r' k m' n a b|r' d'|r' k a b|n d'|n]; cbn [vstep] in Hs.
  - destruct (_ && _); [|discriminate]. destruct (match k with Docker => _ | Podman => _ end) as [[v mm] err]. injection Hs as <-. cbn [vs_mounts] in M.
    destruct err; [left; eauto|]. cbn [mount_of] in M. destruct (Nat.eqb_spec r' r) as [->|_]; [right; now left|left; eauto].
  - destruct (mount_of r' (vs_mounts s)) as [m'|]; [|discriminate]. destruct (vget _ _); [|discriminate]. injection Hs as <-. left. eauto.
  - destruct (mount_of r' (vs_mounts s)) as [m'|]; [|discriminate]. destruct (match k with Docker => _ | Podman => _ end) as [v err]. injection Hs as <-. cbn [vs_mounts] in M.
    rewrite mount_of_unmount in M. destruct (Nat.eqb r' r); [discriminate|]. left. eauto.
  - injection Hs as <-. left. eauto.
  - injection Hs as <-. left. eauto.
Qed.
Lemma written_none r h s : vruns h s -> ~ In r (asked h) -> written r h = [].
Proof.
  induction 1 as [|h s e s' H IH Hs]; [reflexivity|]. rewrite asked_app, written_app. intros N.
  rewrite IH by (intros Hi; apply N; apply in_or_app; now left). destruct e as [? ? ? ? ? ?|r' d|? ? ? ?|? ?|?]; try reflexivity.
  destruct (Nat.eqb_spec r' r) as [->|_]; [|reflexivity]. exfalso. cbn [vstep] in Hs. destruct (mount_of r (vs_mounts s)) as [m|] eqn:M; [|discriminate].
  apply N. apply in_or_app. left. eapply mounted_asked; eassumption.
Qed.
Lemma nodup_unmount r l : NoDup (map (@fst nat mount) l) -> NoDup (map fst (unmount_of r l)).
Proof.
  induction l as [|x l IH]; cbn; [auto|]. intros N. inversion N as [|? ? N1 N2]; subst. destruct (negb _); [|auto]. cbn. constructor; [|auto].
  intros Hi. apply N1. apply in_map_iff in Hi. destruct Hi as (y & E & Hy). apply filter_In in Hy. apply in_map_iff. exists y. tauto.
Qed.

Lemma vinv_run h s : vruns h s -> fresh h -> vinv h s.
Proof.
  induction 1 as [|h s e s' Hr IH Hs]; intros Fr.
  { split; cbn; try contradiction; [constructor|reflexivity]. }
  specialize (IH (fresh_prefix _ _ Fr)). destruct IH as [Mo Da On Se Ot]. destruct Fr as (F1 & F2 & F3).
  assert (Md : forall r m, In (r, m) (vs_mounts s) -> In (m_source m) (drawn h) /\ In r (asked h)).
  { intros r m Hm. destruct (Mo r m Hm) as (k & m0 & a & b & Hi & _). eapply vmount_drawn, Hi. }
  destruct e as [r k m n a b|r d|r k a b|n d|n]; cbn [vstep] in Hs.
  - destruct (String.eqb_spec (m_type m) "volume") as [Ty|]; [|discriminate]. destruct (String.eqb_spec (m_target m) "") as [|Tg]; [discriminate|]. cbn [andb negb] in Hs.
    assert (Nn : ~ In n (drawn h)) by (rewrite drawn_app in F1; now apply nodup_snoc). assert (Nr : ~ In r (asked h)) by (rewrite asked_app in F2; now apply nodup_snoc).
    assert (No : ~ In n (others_names h)). { intros Hi. apply (F3 n); [rewrite drawn_app; apply in_or_app; right; now left|rewrite onames_app; apply in_or_app; now left]. }
    assert (Vn : vget n (vs_vols s) = None) by (rewrite Ot by exact Nn; now apply others_none).
    assert (G : exists v (err : option string), s' = mkV v (match err with None => (r, with_source m n) :: vs_mounts s | Some _ => vs_mounts s end) /\
                (v = vput n [] (vs_vols s) \/ v = vs_vols s /\ err <> None)).
    { destruct k; [unfold docker_mount in Hs; destruct a; rewrite ?Vn in Hs|unfold podman_mount in Hs; destruct a, b]; cbn [negb] in Hs; injection Hs as <-;
        first [exists (vput n [] (vs_vols s)), None; auto; fail|exists (vput n [] (vs_vols s)), (Some ""); auto; fail|exists (vs_vols s), (Some ""); split; [reflexivity|right; split; [reflexivity|discriminate]]]. }
    destruct G as (v & err & -> & Ev). clear Hs. cbn [vs_vols vs_mounts].
    assert (Old : forall x, x <> n -> vget x v = vget x (vs_vols s)).
    { intros x Hx. destruct Ev as [->|(-> & _)]; [|reflexivity]. rewrite vget_put. destruct (String.eqb_spec n x); [congruence|reflexivity]. }
    assert (Old2 : forall r' m', In (r', m') (vs_mounts s) -> m_source m' <> n /\ r' <> r).
    { intros r' m' Hm. destruct (Md r' m' Hm) as (D1 & D2). split; intros E; [rewrite E in D1|rewrite E in D2]; contradiction. }
    split; cbn [vs_vols vs_mounts].
    + assert (Mo' : forall r' m', In (r', m') (vs_mounts s) -> exists k0 m0 a0 b0, In (VMount r' k0 m0 (m_source m') a0 b0) (h ++ [VMount r k m n a b]) /\
                      m' = with_source m0 (m_source m') /\ m_type m0 = "volume" /\ m_target m0 <> "").
      { intros r' m' Hm. destruct (Mo r' m' Hm) as (k' & m0 & a' & b' & Hi & R). exists k', m0, a', b'. split; [apply in_or_app; now left|exact R]. }
      intros r' m' Hm. destruct err; [auto|]. destruct Hm as [[= <- <-]|Hm]; [|auto]. exists k, m, a, b. split; [apply in_or_app; right; now left|auto].
    + assert (Da' : forall r' m', In (r', m') (vs_mounts s) -> vget (m_source m') v = Some (written r' (h ++ [VMount r k m n a b]))).
      { intros r' m' Hm. rewrite Old by (eapply Old2, Hm). rewrite written_app, app_nil_r. auto. }
      intros r' m' Hm. destruct err; [auto|]. destruct Hm as [[= <- <-]|Hm]; [|auto]. cbn. destruct Ev as [->|(_ & X)]; [|contradiction].
      rewrite vget_put, String.eqb_refl, written_app, app_nil_r. f_equal. symmetry. exact (written_none r h s Hr Nr).
    + destruct err; [exact On|]. cbn. constructor; [|exact On]. intros Hi. apply in_map_iff in Hi. destruct Hi as ((r' & m') & E & Hm). cbn in E. subst r'. eapply Old2; [exact Hm|reflexivity].
    + intros r1 m1 r2 m2 H1 H2 E. destruct err; [eauto|]. destruct H1 as [[= <- <-]|H1], H2 as [[= <- <-]|H2]; [reflexivity| | |eauto].
      * exfalso. cbn in E. destruct (Old2 _ _ H2) as (X & _). congruence.
      * exfalso. cbn in E. destruct (Old2 _ _ H1) as (X & _). congruence.
    + intros x Hx. rewrite drawn_app in Hx. rewrite others_app, Old; [apply Ot|]; [intros Hi|intros ->]; apply Hx; apply in_or_app; [now left|right; now left].
  - destruct (mount_of r (vs_mounts s)) as [m|] eqn:M; [|discriminate]. apply mount_of_in in M.
    destruct (Mo r m M) as (k & m0 & a & b & Hi & Em & Ty & Tg). rewrite (used_volume _ _ _ Em Ty Tg) in Hs. rewrite (Da r m M) in Hs. injection Hs as <-.
    split; cbn [vs_vols vs_mounts].
    + intros r' m' Hm. destruct (Mo r' m' Hm) as (k' & m1 & a' & b' & Hi' & R). exists k', m1, a', b'. split; [apply in_or_app; now left|exact R].
    + intros r' m' Hm. rewrite vget_put, written_app. destruct (String.eqb_spec (m_source m) (m_source m')) as [E|E].
      * rewrite (Se _ _ _ _ M Hm E), Nat.eqb_refl. reflexivity.
      * destruct (Nat.eqb_spec r r') as [->|_]; [|rewrite app_nil_r; auto]. exfalso. apply E. f_equal. 
        exact (fst_unique _ On _ _ _ M Hm).
    + exact On.
    + exact Se.
    + intros x Hx. rewrite drawn_app, app_nil_r in Hx. rewrite others_app, vget_put. destruct (String.eqb_spec (m_source m) x) as [<-|_]; [|auto]. exfalso. apply Hx. eapply Md, M.
  - destruct (mount_of r (vs_mounts s)) as [m|] eqn:M; [|discriminate]. apply mount_of_in in M.
    assert (G : exists v, s' = mkV v (unmount_of r (vs_mounts s)) /\ (v = vs_vols s \/ v = vdel (m_source m) (vs_vols s))).
    { destruct k; [unfold docker_unmount in Hs; destruct a, b, (existsb _ _)|unfold podman_unmount in Hs; destruct b]; cbn [negb] in Hs; injection Hs as <-; eauto. }
    destruct G as (v & -> & Ev). clear Hs.
    assert (Sub : forall r' m', In (r', m') (unmount_of r (vs_mounts s)) -> In (r', m') (vs_mounts s) /\ r' <> r).
    { intros r' m' Hm. apply filter_In in Hm. destruct Hm as (Hm & E). split; [exact Hm|]. apply negb_true_iff, Nat.eqb_neq in E. exact E. }
    split; cbn [vs_vols vs_mounts].
    + intros r' m' Hm. apply Sub in Hm. destruct Hm as (Hm & _). destruct (Mo r' m' Hm) as (k' & m1 & a' & b' & Hi' & R). exists k', m1, a', b'. split; [apply in_or_app; now left|exact R].
    + intros r' m' Hm. apply Sub in Hm. destruct Hm as (Hm & Nr). rewrite written_app, app_nil_r. destruct Ev as [->| ->]; [auto|]. rewrite vget_del.
      destruct (String.eqb_spec (m_source m) (m_source m')) as [E|_]; [|auto]. exfalso. apply Nr. symmetry. exact (Se _ _ _ _ M Hm E).
    + now apply nodup_unmount.
    + intros r1 m1 r2 m2 H1 H2. apply Sub in H1, H2. destruct H1, H2. eauto.
    + intros x Hx. rewrite drawn_app, app_nil_r in Hx. rewrite others_app. destruct Ev as [->| ->]; [auto|]. rewrite vget_del.
      destruct (String.eqb_spec (m_source m) x) as [<-|_]; [|auto]. exfalso. apply Hx. eapply Md, M.
  - injection Hs as <-. assert (Nn : ~ In n (drawn h)).
    { intros Hi. apply (F3 n); [rewrite drawn_app; apply in_or_app; now left|rewrite onames_app; apply in_or_app; right; now left]. }
    split; cbn [vs_vols vs_mounts].
    + intros r' m' Hm. destruct (Mo r' m' Hm) as (k' & m1 & a' & b' & Hi' & R). exists k', m1, a', b'. split; [apply in_or_app; now left|exact R].
    + intros r' m' Hm. rewrite written_app, app_nil_r, vget_put. destruct (String.eqb_spec n (m_source m')) as [E|_]; [|auto]. exfalso. apply Nn. rewrite E. eapply Md, Hm.
    + exact On.
    + exact Se.
    + intros x Hx. rewrite drawn_app, app_nil_r in Hx. rewrite others_app, vget_put. destruct (String.eqb_spec n x) as [->|_]; [|auto]. rewrite Ot by exact Hx. reflexivity.
  - injection Hs as <-. assert (Nn : ~ In n (drawn h)).
    { intros Hi. apply (F3 n); [rewrite drawn_app; apply in_or_app; now left|rewrite onames_app; apply in_or_app; right; now left]. }
    split; cbn [vs_vols vs_mounts].
    + intros r' m' Hm. destruct (Mo r' m' Hm) as (k' & m1 & a' & b' & Hi' & R). exists k', m1, a', b'. split; [apply in_or_app; now left|exact R].
    + intros r' m' Hm. rewrite written_app, app_nil_r, vget_del. destruct (String.eqb_spec n (m_source m')) as [E|_]; [|auto]. exfalso. apply Nn. rewrite E. eapply Md, Hm.
    + exact On.
    + exact Se.
    + intros x Hx. rewrite drawn_app, app_nil_r in Hx. rewrite others_app, vget_del. destruct (String.eqb_spec n x) as [->|_]; auto.
Qed.

(* ------------------------------------------------------------------ *)
(** * Theorems *)
(** ** Private
    What a container finds in a volume of its task is what was written through that very mounting since it was mounted, in order:
    never anything of another task or program, whatever source the task asked for. *)
Theorem C92_volume_is_private : forall h s r m, vruns h s -> fresh h -> is_mounted s r m ->
  (exists k asked_for name a b, In (VMount r k asked_for name a b) h /\ mount_conf m = inr (MVolume, name, m_target asked_for)) /\
  vget (volume_used m) (vs_vols s) = Some (written r h).
Proof.
  intros h s r m Hr Hf Hm. apply mount_of_in in Hm. destruct (vinv_run h s Hr Hf) as [Mo Da _ _ _]. destruct (Mo r m Hm) as (k & m0 & a & b & Hi & Em & Ty & Tg). split.
  - exists k, m0, (m_source m), a, b. split; [exact Hi|]. rewrite Em at 1. unfold mount_conf. cbn. rewrite Ty. cbn. destruct (String.eqb_spec (m_target m0) ""); [contradiction|reflexivity].
  - rewrite (used_volume _ _ _ Em Ty Tg). exact (Da r m Hm).
Qed.
(** two tasks, or two mounts of one task, never share a volume *)
Theorem C92_no_sharing : forall h s r m r' m', vruns h s -> fresh h -> is_mounted s r m -> is_mounted s r' m' -> r <> r' -> volume_used m <> volume_used m'.
Proof.
  intros h s r m r' m' Hr Hf Hm Hm' N E. apply mount_of_in in Hm, Hm'. destruct (vinv_run h s Hr Hf) as [Mo Da _ Se _].
  destruct (Mo r m Hm) as (k & m0 & a & b & _ & Em & Ty & Tg). destruct (Mo r' m' Hm') as (k' & m0' & a' & b' & _ & Em' & Ty' & Tg').
  rewrite (used_volume _ _ _ Em Ty Tg), (used_volume _ _ _ Em' Ty' Tg') in E. exact (N (Se _ _ _ _ Hm Hm' E)).
Qed.
(** ** Other programs' volumes are untouched *)
Theorem C92_others_untouched : forall h s n, vruns h s -> fresh h -> In n (others_names h) -> vget n (vs_vols s) = others n (rev h).
Proof.
  intros h s n Hr Hf Hn. destruct (vinv_run h s Hr Hf) as [_ _ _ _ Ot]. apply Ot. intros Hi. destruct Hf as (_ & _ & F). exact (F n Hi Hn).
Qed.
(** ** Nothing is left
    If no call to the engine failed, the volumes there are those mounted and those of other programs. *)
Definition works (e : vev) : Prop := match e with VMount _ _ _ _ a b => a = true /\ b = true | VUnmount _ _ a b => a = true /\ b = true | _ => True end.
Lemma contains_there n c v : vget n v = Some c -> existsb (fun p => contains n (fst p)) v = true.
Proof. intros H. apply existsb_exists. exists (n, c). split; [now apply vget_in|apply contains_self]. Qed.
Theorem C92_nothing_left : forall h s n c, vruns h s -> fresh h -> Forall works h -> vget n (vs_vols s) = Some c ->
  others n (rev h) = Some c \/ exists r m, is_mounted s r m /\ volume_used m = n.
Proof.
  intros h s n c Hr Hf Hw. enough (G : forall x, In x (drawn h) -> forall y, vget x (vs_vols s) = Some y -> exists r m, is_mounted s r m /\ m_source m = x).
  { intros Hv. destruct (vinv_run h s Hr Hf) as [Mo _ _ _ Ot]. destruct (in_dec string_dec n (drawn h)) as [I|I]; [|left; rewrite <- Ot by exact I; exact Hv].
    right. destruct (G n I c Hv) as (r & m & Hm & E). exists r, m. split; [exact Hm|]. apply mount_of_in in Hm. destruct (Mo r m Hm) as (k & m0 & a & b & _ & Em & Ty & Tg).
    rewrite (used_volume _ _ _ Em Ty Tg). exact E. }
  clear n c. induction Hr as [|h s e s' Hr IH Hs]; [contradiction|]. apply Forall_app in Hw. destruct Hw as (Hw & We). inversion We as [|? ? W0 _]; subst. clear We.
  assert (Hf' := fresh_prefix _ _ Hf). specialize (IH Hf' Hw). destruct (vinv_run h s Hr Hf') as [Mo Da On Se Ot]. destruct Hf as (F1 & F2 & F3).
  intros x Hx y Hy. rewrite drawn_app in Hx. apply in_app_or in Hx.
  destruct e as [r k m n a b|r d|r k a b|n d|n]; cbn [vstep] in Hs.
  - destruct W0 as (-> & ->). destruct (String.eqb (m_type m) "volume" && negb (String.eqb (m_target m) "")); [|discriminate].
    assert (Nn : ~ In n (drawn h)) by (rewrite drawn_app in F1; now apply nodup_snoc).
    assert (No : ~ In n (others_names h)). { intros Hi. apply (F3 n); [rewrite drawn_app; apply in_or_app; right; now left|rewrite onames_app; apply in_or_app; now left]. }
    assert (Vn : vget n (vs_vols s) = None) by (rewrite Ot by exact Nn; now apply others_none).
    assert (Nr : ~ In r (asked h)) by (rewrite asked_app in F2; now apply nodup_snoc).
    assert (E : s' = mkV (vput n [] (vs_vols s)) ((r, with_source m n) :: vs_mounts s)).
    { destruct k; [unfold docker_mount in Hs; rewrite Vn in Hs|unfold podman_mount in Hs]; cbn [negb] in Hs; injection Hs as <-; reflexivity. }
    subst s'. unfold is_mounted. cbn [vs_vols vs_mounts mount_of] in *. destruct Hx as [Hx|[<-|[]]].
    + assert (Nx : n <> x) by (intros ->; contradiction). rewrite vget_put in Hy. destruct (String.eqb_spec n x); [contradiction|]. destruct (IH x Hx y Hy) as (r' & m' & Hm & E).
      exists r', m'. split; [|exact E]. destruct (Nat.eqb_spec r r') as [->|_]; [|exact Hm]. exfalso. apply Nr. eapply mounted_asked; eassumption.
    + exists r, (with_source m n). rewrite Nat.eqb_refl. split; reflexivity.
  - destruct Hx as [Hx|[]]. destruct (mount_of r (vs_mounts s)) as [m|] eqn:M; [|discriminate].
    destruct (Mo r m (mount_of_in _ _ _ M)) as (k & m0 & a & b & Hi & Em & Ty & Tg). rewrite (used_volume _ _ _ Em Ty Tg), (Da r m (mount_of_in _ _ _ M)) in Hs. injection Hs as <-.
    unfold is_mounted. cbn [vs_vols vs_mounts] in *. rewrite vget_put in Hy. destruct (String.eqb_spec (m_source m) x) as [E|_]; [exists r, m; split; assumption|eauto].
  - destruct Hx as [Hx|[]]. destruct W0 as (-> & ->). destruct (mount_of r (vs_mounts s)) as [m|] eqn:M; [|discriminate].
    assert (E : s' = mkV (vdel (m_source m) (vs_vols s)) (unmount_of r (vs_mounts s))).
    { destruct k; [unfold docker_unmount in Hs; rewrite (contains_there _ _ _ (Da r m (mount_of_in _ _ _ M))) in Hs|unfold podman_unmount in Hs]; cbn [negb] in Hs; injection Hs as <-; reflexivity. }
    subst s'. unfold is_mounted. cbn [vs_vols vs_mounts] in *. rewrite vget_del in Hy. destruct (String.eqb_spec (m_source m) x) as [_|N]; [discriminate|].
    destruct (IH x Hx y Hy) as (r' & m' & Hm & E). exists r', m'. split; [|exact E]. rewrite mount_of_unmount. destruct (Nat.eqb_spec r r') as [->|_]; [|exact Hm].
    exfalso. unfold is_mounted in Hm. rewrite M in Hm. injection Hm as ->. contradiction.
  - destruct Hx as [Hx|[]]. injection Hs as <-. unfold is_mounted. cbn [vs_vols vs_mounts] in *. rewrite vget_put in Hy. destruct (String.eqb_spec n x) as [->|_]; [|eauto].
    exfalso. apply (F3 x); [rewrite drawn_app; apply in_or_app; now left|rewrite onames_app; apply in_or_app; right; now left].
  - destruct Hx as [Hx|[]]. injection Hs as <-. unfold is_mounted. cbn [vs_vols vs_mounts] in *. rewrite vget_del in Hy. destruct (String.eqb_spec n x); [discriminate|eauto].
Qed.

(** ** A whole run
    Whatever happens in a run of a task with Docker or Podman, successful or not: if the engine does not fail to remove volumes,
    those there afterwards are those there before.  [vol i]: the volume of the mount with the id [i]. *)
Section Run.
Variable o : nat -> option string.
Variable out : nat -> string.
Variable uuid : nat -> id.
Variable vol : string -> string.
Definition volumes_after1 (v : list string) (e : rev_) : list string :=
  match e with
  | (Mount_ m, None) => vol (m_id m) :: v
  | (Unmount_ m, None) => filter (fun n => negb (String.eqb n (vol (m_id m)))) v
  | _ => v
  end.
Definition volumes_after (v : list string) (l : list rev_) : list string := fold_left volumes_after1 l v.
Lemma after_app v l l' : volumes_after v (l ++ l') = volumes_after (volumes_after v l) l'.
Proof. apply fold_left_app. Qed.
Lemma after_cons v e l : volumes_after v (e :: l) = volumes_after (volumes_after1 v e) l.
Proof. reflexivity. Qed.
Lemma after_quiet l : mounted l = [] -> unmounted l = [] -> forall v, volumes_after v l = v.
Proof.
  induction l as [|(e, r) l IH]; intros M U v; [reflexivity|]. rewrite after_cons.
  unfold mounted, unmounted in M, U. cbn [flat_map fst] in M, U. apply app_eq_nil in M, U. destruct M as (M1 & M2), U as (U1 & U2). rewrite IH by assumption.
  destruct e, r; try reflexivity; discriminate.
Qed.
(** the numbers of the operations are those from [n] up to [n'] *)
Definition unused (v : list string) (n : nat) : Prop := forall k, (n <= k)%nat -> ~ In (vol (id_text (uuid k))) v.
Definition distinct : Prop := forall k k', vol (id_text (uuid k)) = vol (id_text (uuid k')) -> k = k'.
Lemma with_mounts_volumes ms : distinct -> forall t done n l n' r v, with_mounts o uuid t ms done (run_sequence o out uuid) n = (l, n', r) ->
  (forall m e, In (Unmount_ m, Some e) l -> False) -> unused v n -> volumes_after v l = v.
Proof.
  intros D. induction ms as [|m ms IH]; intros t done n l n' [t' e] v H Ok Un; cbn [with_mounts] in H.
  - apply run_sequence_spec in H as (((Qm & Qu & _) & _) & _). now apply after_quiet.
  - apply bind_inv in H as (k1 & n1 & i & k2 & E & H & ->). injection E as <- <- <-. apply bind_inv in H as (k3 & n2 & a & k4 & E & H & ->). 
    assert (N2 : n2 = S (S n)) by (unfold call in E; injection E as _ <- _; reflexivity). apply call_inv in E as [-> _]. destruct a as [err|].
    + apply ret_inv in H as (-> & _ & Et). reflexivity.
    + apply bind_inv in H as (l1 & n3 & a0 & k5 & E & H & ->). apply bind_inv in H as (k6 & n4 & a & k7 & E' & H & ->). apply call_inv in E' as [-> _].
      apply ret_inv in H as (-> & _ & Et). rewrite app_nil_l, app_nil_r in *. set (m1 := m <| m_id := id_text (uuid n) |>) in *.
      assert (Ea : a = None). { destruct a as [x|]; [|reflexivity]. exfalso. apply (Ok m1 x). apply in_or_app. right. apply in_or_app. right. now left. }
      subst a. change ([(Mount_ m1, None)] ++ l1 ++ [(Unmount_ m1, None)]) with ((Mount_ m1, None) :: (l1 ++ [(Unmount_ m1, None)])).
      rewrite after_cons, after_app. cbn [volumes_after1].
      assert (Mi : m_id m1 = id_text (uuid n)) by (destruct m; reflexivity). clearbody m1.
      rewrite (IH _ _ _ _ _ _ (vol (m_id m1) :: v) E).
      * rewrite after_cons. change (volumes_after ?x []) with x. cbn [volumes_after1 filter]. rewrite String.eqb_refl. cbn [negb]. rewrite Mi. specialize (Un n (le_n n)). clear - Un. induction v as [|x v IH]; [reflexivity|].
        cbn. destruct (String.eqb_spec x (vol (id_text (uuid n)))) as [E|_]; [exfalso; apply Un; now left|]. cbn. f_equal. apply IH. intros H. apply Un. now right.
      * intros m' x Hx. apply (Ok m' x). apply in_or_app. right. apply in_or_app. now left.
      * intros k Hk [E1|Hin]; [|apply (Un k); [lia|exact Hin]]. rewrite Mi in E1. apply D in E1. lia.
Qed.
Theorem C92_run_leaves_nothing : distinct -> forall t n l n' r v, (docker_run o out uuid t n = (l, n', r) \/ podman_run o out uuid t n = (l, n', r)) ->
  (forall m e, ~ In (Unmount_ m, Some e) l) -> unused v n -> volumes_after v l = v.
Proof.
  intros D t n l n' r v [H|H] Ok Un.
  - unfold docker_run in H. destruct (t_sidecars t); [eapply with_mounts_volumes; eassumption|]. apply bind_inv in H as (k0 & n0 & i & k00 & E & H & ->). injection E as <- <- <-.
    apply bind_inv in H as (k1 & n1 & a & k2 & E & H & ->). assert (N1 : n1 = S (S n)) by (unfold call in E; injection E as _ <- _; reflexivity). apply call_inv in E as [-> _]. destruct a.
    { apply ret_inv in H as (-> & _ & Et). reflexivity. }
    apply bind_inv in H as (k3 & n2 & a & k4 & E & H & ->). apply bind_inv in H as (k5 & n3 & b & k6 & E' & H & ->). apply call_inv in E' as [-> _]. apply ret_inv in H as (-> & _ & _).
    rewrite app_nil_l, app_nil_r in *. change ([(NetCreate (id_text (uuid n)), None)] ++ k3 ++ [(NetRemove (id_text (uuid n)), b)]) with ((NetCreate (id_text (uuid n)), None) :: (k3 ++ [(NetRemove (id_text (uuid n)), b)])).
    rewrite after_cons, after_app. cbn [volumes_after1].
    rewrite (with_mounts_volumes _ D _ _ _ _ _ _ v E); [destruct b; reflexivity| |intros k Hk; apply Un; lia].
    intros m e He. apply (Ok m e). apply in_or_app. right. apply in_or_app. now left.
  - unfold podman_run in H. assert (R : forall s, ret (t, Some s) n = (l, n', r) -> volumes_after v l = v) by (intros s Hs; apply ret_inv in Hs as (-> & _ & _); reflexivity).
    destruct (is_noid _); [eauto|]. destruct (String.eqb _ _); [eauto|]. destruct (String.eqb _ _); [eauto|]. destruct (t_sidecars t); [|eauto]. eapply with_mounts_volumes; eassumption.
Qed.
End Run.

(* ------------------------------------------------------------------ *)
(** * What does not hold *)
(** A volume the engine failed to remove is never removed: the mount is forgotten.  And with Podman a directory that could not
    be made readable is left behind. *)
Theorem C92_leak_refuted : forall m name, m_type m = "volume" -> m_target m <> "" ->
  (exists s, vruns [VMount 0 Docker m name true true; VUnmount 0 Docker true false] s /\ vget name (vs_vols s) = Some [] /\ vs_mounts s = []) /\
  (exists s, vruns [VMount 0 Podman m name true false] s /\ vget name (vs_vols s) = Some [] /\ vs_mounts s = []).
Proof.
  intros m name Ty Tg. split.
  - eexists. split; [|split].
    + change [VMount 0 Docker m name true true; VUnmount 0 Docker true false] with (([] ++ [VMount 0 Docker m name true true]) ++ [VUnmount 0 Docker true false]).
      eapply vr_step; [eapply vr_step; [apply vr_nil|]|].
      * cbn [vstep]. rewrite Ty. destruct (String.eqb_spec (m_target m) ""); [contradiction|]. reflexivity.
      * cbn [vstep vs_mounts mount_of Nat.eqb]. unfold docker_unmount. cbn [vs_vols v0 vput vdel filter existsb fst m_source with_source negb]. cbn [vget vput vdel filter existsb fst]. rewrite contains_self. reflexivity.
    + cbn. rewrite String.eqb_refl. reflexivity.
    + reflexivity.
  - eexists. split; [|split].
    + change [VMount 0 Podman m name true false] with ([] ++ [VMount 0 Podman m name true false]). eapply vr_step; [apply vr_nil|].
      cbn [vstep]. rewrite Ty. destruct (String.eqb_spec (m_target m) ""); [contradiction|]. reflexivity.
    + cbn. rewrite String.eqb_refl. reflexivity.
    + reflexivity.
Qed.
Print Assumptions C92_volume_is_private.
Print Assumptions C92_no_sharing.
Print Assumptions C92_others_untouched.
Print Assumptions C92_nothing_left.
Print Assumptions C92_run_leaves_nothing.
Print Assumptions C92_leak_refuted.

(** Non-vacuity: two tasks and another program; the second task asks for the other program's volume by name *)
Fixpoint vrun (s : vstate) (l : list vev) : option vstate := match l with [] => Some s | e :: l => match vstep s e with Some s' => vrun s' l | None => None end end.
Lemma vrun_runs l : forall h s s', vruns h s -> vrun s l = Some s' -> vruns (h ++ l) s'.
Proof.
  induction l as [|e l IH]; intros h s s' R E; cbn [vrun] in E; [injection E as <-; now rewrite app_nil_r|].
  destruct (vstep s e) as [s1|] eqn:E1; [|discriminate]. change (e :: l) with ([e] ++ l). rewrite app_assoc. eapply IH; [eapply vr_step; eassumption|exact E].
Qed.
Definition vm (src : string) := mkMount "" "volume" src "/data" [].
Definition vh : list vev := [OPut "db" "rows"; VMount 0 Docker (vm "") "u0" true true; VWrite 0 "a"; VMount 1 Docker (vm "db") "u1" true true; VWrite 1 "b"; VWrite 0 "c"; VUnmount 0 Docker true true].
Example C92_nonvacuous : exists s m, vruns vh s /\ fresh vh /\ Forall works vh /\ is_mounted s 1 m /\ written 1 vh = ["b"] /\ vget "db" (vs_vols s) = Some ["rows"] /\ vget "u0" (vs_vols s) = None.
Proof.
  eexists. eexists. split; [apply (vrun_runs vh [] _ _ vr_nil); vm_compute; reflexivity|]. split; [|split; [|split; [vm_compute; reflexivity|split; [reflexivity|split; reflexivity]]]].
  - split; [|split].
    + repeat constructor; cbn; intuition discriminate.
    + repeat constructor; cbn; intuition discriminate.
    + intros n Hn Ho. cbn in Hn, Ho. intuition (subst; discriminate).
  - repeat constructor.
Qed.
(** ... and a run of a task with a mount and a failing container *)
Example C92_run_nonvacuous : exists o out uuid t l n' r, docker_run o out uuid t 0%nat = (l, n', r) /\ mounted l <> [] /\ snd r <> None /\
  distinct uuid (fun i => i) /\ (forall m e, ~ In (Unmount_ m, Some e) l).
Proof.
  exists (fun n => match n with 8%nat => Some "exit code 1" | _ => None end), (fun _ => ""), (fun n => N.of_nat n), (rt_mk 7%N "main" [] [] [] [mkMount "" "volume" "" "/x" []]).
  eexists. eexists. eexists. split; [vm_compute; reflexivity|]. split; [vm_compute; discriminate|]. split; [vm_compute; discriminate|]. split.
  - intros k k' E. unfold id_text in E. apply Nat2N.inj. rewrite <- (DecimalN.Unsigned.of_to (N.of_nat k)), <- (DecimalN.Unsigned.of_to (N.of_nat k')). f_equal.
    assert (U : NilEmpty.uint_of_string (NilEmpty.string_of_uint (N.to_uint (N.of_nat k))) = NilEmpty.uint_of_string (NilEmpty.string_of_uint (N.to_uint (N.of_nat k')))) by (now rewrite E).
    rewrite !NilEmpty.usu in U. congruence.
  - intros m e H. repeat (destruct H as [H|H]; [discriminate|]). destruct H.
Qed.
