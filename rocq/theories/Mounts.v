(** C49: mounts.  runtime/multi.go:11-64 (MultiMounter), runtime/docker/bind.go:16-79 (BindMounter),
    runtime/docker/tmpfs.go:17-29 (TmpfsMounter). *)
From Coq Require Import Ascii.
From Verif Require Import Types.
Open Scope string_scope.
Open Scope list_scope.

(* ------------------------------------------------------------------ *)
(** * Model: MultiMounter *)
(** Mounters are named by numbers.  [Mount] and [Unmount] release the lock between looking up and updating, so calls of
    different goroutines interleave at the level of these segments:
    - [SMount m]: multi.go:24-37, the id check, the look-up of the type (the registrations do not change any more) and
      [mapping[ID] = mounter];
    - [SLook m]: multi.go:41-47, the id check and the look-up of the mapping;
    - [SForget m k]: multi.go:51-54, the removal of the mapping and the call of the mounter found, [k]. *)
Inductive seg := SMount (m : mount) | SLook (m : mount) | SForget (m : mount) (k : nat).
(** what a segment does: an error, a call to the [Mount]/[Unmount] of a mounter, or a look-up result *)
Inductive did := DErr (e : string) | DMount (k : nat) (m : mount) | DUnmount (k : nat) (m : mount) | DFound (k : nat).

Record mm := mkMM { mm_mounters : string -> option nat; mm_mapping : string -> option nat }.
Definition upd (f : string -> option nat) (i : string) (v : option nat) : string -> option nat :=
  fun j => if String.eqb i j then v else f j.

Definition exec_seg (s : mm) (g : seg) : mm * did :=
  match g with
  | SMount m =>
      if String.eqb (m_id m) "" then (s, DErr "must provide a mount ID")
      else match mm_mounters s (m_type m) with
           | None => (s, DErr ("unknown mount type: " ++ m_type m)%string)
           | Some k => (mkMM (mm_mounters s) (upd (mm_mapping s) (m_id m) (Some k)), DMount k m)
           end
  | SLook m =>
      if String.eqb (m_id m) "" then (s, DErr "must provide a mount ID")
      else match mm_mapping s (m_id m) with
           | None => (s, DErr "unmounter not found")
           | Some k => (s, DFound k)
           end
  | SForget m k => (mkMM (mm_mounters s) (upd (mm_mapping s) (m_id m) None), DUnmount k m)
  end.
Fixpoint exec_segs (s : mm) (l : list seg) : mm * list (seg * did) :=
  match l with
  | [] => (s, [])
  | g :: l => let (s1, d) := exec_seg s g in let (s2, r) := exec_segs s1 l in (s2, (g, d) :: r)
  end.

(** multi.go:57-64; [None] is the panic *)
Definition register_mounter (s : mm) (ty : string) (k : nat) : option mm :=
  match mm_mounters s ty with
  | Some _ => None
  | None => Some (mkMM (upd (mm_mounters s) ty (Some k)) (mm_mapping s))
  end.

(** * Model: BindMounter *)
(** strings.EqualFold restricted to ASCII letters (simplification: the Unicode case folding of other characters is not
    modelled) *)
Definition lower (c : ascii) : ascii :=
  let n := nat_of_ascii c in if (65 <=? n)%nat && (n <=? 90)%nat then ascii_of_nat (n + 32) else c.
Fixpoint equal_fold (a b : string) : bool :=
  match a, b with
  | EmptyString, EmptyString => true
  | String c a, String d b => Ascii.eqb (lower c) (lower d) && equal_fold a b
  | _, _ => false
  end.
Record bindcfg := mkBind { b_allowed : bool; b_sources : list string }.
(** bind.go:64-74 *)
Definition source_allowed (cfg : bindcfg) (src : string) : bool :=
  match b_sources cfg with [] => true | _ => existsb (fun a => equal_fold a src) (b_sources cfg) end.
(** state: the sources handled before, and the directories created on the host *)
Record bindst := mkBindSt { bs_known : list string; bs_created : list string }.
(** os.Stat: exists, does not exist, other error; os.MkdirAll: does it work *)
Inductive stat := Exists | NotExist | StatErr.
(** bind.go:34-62 *)
Definition bind_mount (cfg : bindcfg) (st : string -> stat) (mkdir_ok : string -> bool) (s : bindst) (m : mount) : bindst * option string :=
  if negb (b_allowed cfg) then (s, Some "bind mounts are not allowed")
  else if negb (source_allowed cfg (m_source m)) then (s, Some ("src bind mount is not allowed: " ++ m_source m)%string)
  else if existsb (String.eqb (m_source m)) (bs_known s) then (s, None)
  else match st (m_source m) with
       | NotExist => if mkdir_ok (m_source m)
                     then (mkBindSt (m_source m :: bs_known s) (m_source m :: bs_created s), None)
                     else (s, Some "error creating mount directory")
       | StatErr => (s, Some "error stat on directory")
       | Exists => (mkBindSt (m_source m :: bs_known s) (bs_created s), None)
       end.

(** tmpfs.go:17-25 *)
Definition tmpfs_mount (m : mount) : option string :=
  if String.eqb (m_target m) "" then Some "tmpfs target is required"
  else if negb (String.eqb (m_source m) "") then Some "tmpfs source should be empty"
  else None.

(* ------------------------------------------------------------------ *)
(** * Specification *)
(** the mounter responsible for id [i] after a history: the one of the latest mount of [i] not unmounted since *)
Fixpoint responsible (reg : string -> option nat) (h : list seg) (i : string) : option nat :=   (* h: latest first *)
  match h with
  | [] => None
  | SMount m :: h => if String.eqb (m_id m) i && negb (String.eqb i "")
                     then match reg (m_type m) with Some k => Some k | None => responsible reg h i end
                     else responsible reg h i
  | SForget m _ :: h => if String.eqb (m_id m) i then None else responsible reg h i
  | SLook _ :: h => responsible reg h i
  end.

(* ------------------------------------------------------------------ *)
(** * Proofs *)
Definition mm0 reg := mkMM reg (fun _ => None).
Lemma exec_app s l1 l2 : exec_segs s (l1 ++ l2) =
  let (s1, r1) := exec_segs s l1 in let (s2, r2) := exec_segs s1 l2 in (s2, r1 ++ r2).
Proof.
  revert s. induction l1 as [|g l1 IH]; intros s; cbn; [destruct (exec_segs s l2); reflexivity|].
  destruct (exec_seg s g) as [s1 d]. rewrite IH. destruct (exec_segs s1 l1) as [s2 r1]. destruct (exec_segs s2 l2). reflexivity.
Qed.
Lemma exec_state reg l : fst (exec_segs (mm0 reg) l) = mkMM reg (mm_mapping (fst (exec_segs (mm0 reg) l))) /\
  forall i, mm_mapping (fst (exec_segs (mm0 reg) l)) i = responsible reg (rev l) i.
Proof.
  induction l as [|g l IH] using rev_ind; [split; reflexivity|].
  rewrite exec_app, rev_app_distr. destruct (exec_segs (mm0 reg) l) as [s r]. cbn [fst] in *. destruct IH as [E IH].
  cbn [exec_segs rev app]. destruct (exec_seg s g) as [s1 d] eqn:Eg. cbn [fst].
  destruct s as [reg' mp]. cbn in E. injection E as ->. cbn [mm_mapping] in IH.
  destruct g as [m|m|m k]; cbn in Eg.
  - destruct (String.eqb_spec (m_id m) "") as [Hn|Hn].
    + injection Eg as <- <-. split; [reflexivity|]. intros i. cbn. rewrite IH.
      destruct (String.eqb_spec (m_id m) i) as [<-|]; cbn; [|reflexivity]. rewrite Hn. cbn. reflexivity.
    + destruct (reg (m_type m)) as [k|] eqn:Et; injection Eg as <- <-; split; try reflexivity; intros i; cbn; rewrite ?Et.
      * unfold upd. rewrite IH. destruct (String.eqb_spec (m_id m) i) as [<-|]; cbn; [|reflexivity].
        destruct (String.eqb_spec (m_id m) ""); [contradiction|]. reflexivity.
      * rewrite IH. destruct (_ && _); reflexivity.
  - assert (s1 = mkMM reg mp) as -> by (destruct (String.eqb _ _); [congruence|]; destruct (mp (m_id m)); congruence).
    split; [reflexivity|]. intros i. cbn. apply IH.
  - injection Eg as <- <-. split; [reflexivity|]. intros i. cbn. unfold upd. rewrite IH. reflexivity.
Qed.

(** A mount goes to the mounter registered for its type, an unknown type (or a missing id) is refused without effect;
    an unmount goes to the mounter that mounted that id, if it is still mounted, whatever else is being mounted and
    unmounted concurrently. *)
Theorem C49_dispatch : forall reg h g, let (s, _) := exec_segs (mm0 reg) h in
  match g with
  | SMount m =>
      match reg (m_type m) with
      | Some k => m_id m <> "" -> snd (exec_seg s g) = DMount k m
      | None => exists e, exec_seg s g = (s, DErr e)
      end
  | SLook m =>
      m_id m <> "" ->
      match responsible reg (rev h) (m_id m) with
      | Some k => exec_seg s g = (s, DFound k)
      | None => exists e, exec_seg s g = (s, DErr e)
      end
  | SForget m k => snd (exec_seg s g) = DUnmount k m
  end.
Proof.
  intros reg h g. pose proof (exec_state reg h) as [E H]. destruct (exec_segs (mm0 reg) h) as [s r]. cbn [fst] in *.
  destruct g as [m|m|m k]; cbn.
  - rewrite E. cbn [mm_mounters]. destruct (reg (m_type m)) as [k|].
    + intros Hn. destruct (String.eqb_spec (m_id m) ""); [contradiction|reflexivity].
    + destruct (String.eqb _ _); eauto.
  - intros Hn. destruct (String.eqb_spec (m_id m) ""); [contradiction|]. rewrite H. destruct (responsible _ _ _); eauto.
  - reflexivity.
Qed.
Print Assumptions C49_dispatch.

(** In particular: mount, anything about other ids, then unmount: the same mounter is found. *)
Theorem C49_unmount_by_the_mounter : forall reg h1 h2 m m' k,
  m_id m <> "" -> m_id m' = m_id m -> reg (m_type m) = Some k ->
  (forall g, In g h2 -> match g with SMount x | SForget x _ => m_id x <> m_id m | SLook _ => True end) ->
  let (s, _) := exec_segs (mm0 reg) (h1 ++ [SMount m] ++ h2) in exec_seg s (SLook m') = (s, DFound k).
Proof.
  intros reg h1 h2 m m' k Hn Hid Hk Hh.
  pose proof (C49_dispatch reg (h1 ++ [SMount m] ++ h2) (SLook m')) as H.
  destruct (exec_segs (mm0 reg) (h1 ++ [SMount m] ++ h2)) as [s r]. rewrite Hid in H. specialize (H Hn).
  assert (R : responsible reg (rev (h1 ++ [SMount m] ++ h2)) (m_id m) = Some k); [|now rewrite R in H].
  rewrite !rev_app_distr. cbn [rev app]. rewrite <- app_assoc. cbn [app].
  assert (Hr : forall g, In g (rev h2) -> match g with SMount x | SForget x _ => m_id x <> m_id m | SLook _ => True end) by (intros g Hg; apply Hh; now apply in_rev).
  revert Hr. generalize (rev h2). intros l Hl. induction l as [|g l IH]; cbn [app].
  - cbn. rewrite String.eqb_refl. destruct (String.eqb_spec (m_id m) ""); [contradiction|]. cbn. now rewrite Hk.
  - assert (Hg := Hl g (or_introl eq_refl)). assert (IH' : responsible reg (l ++ SMount m :: rev h1) (m_id m) = Some k) by (apply IH; intros; apply Hl; now right).
    destruct g as [x|x|x kx]; cbn; [|assumption|].
    + destruct (String.eqb_spec (m_id x) (m_id m)); [contradiction|]. cbn. assumption.
    + destruct (String.eqb_spec (m_id x) (m_id m)); [contradiction|assumption].
Qed.
Print Assumptions C49_unmount_by_the_mounter.

(** after the unmount the id is unknown again *)
Theorem C49_unmount_once : forall reg h m k, m_id m <> "" ->
  let (s, _) := exec_segs (mm0 reg) (h ++ [SForget m k]) in exists e, exec_seg s (SLook m) = (s, DErr e).
Proof.
  intros reg h m k Hn. pose proof (C49_dispatch reg (h ++ [SForget m k]) (SLook m)) as H.
  destruct (exec_segs (mm0 reg) (h ++ [SForget m k])) as [s r]. specialize (H Hn).
  rewrite rev_app_distr in H. cbn [rev app responsible] in H. now rewrite String.eqb_refl in H.
Qed.
Print Assumptions C49_unmount_once.

(** a type is registered once: registering it again panics, and does not change who is responsible *)
Theorem C49_register : forall s ty k,
  match register_mounter s ty k with
  | None => mm_mounters s ty <> None
  | Some s' => mm_mounters s ty = None /\ mm_mounters s' ty = Some k /\ forall ty', ty' <> ty -> mm_mounters s' ty' = mm_mounters s ty'
  end.
Proof.
  intros s ty k. unfold register_mounter. destruct (mm_mounters s ty) eqn:E; [congruence|]. cbn. unfold upd. rewrite String.eqb_refl.
  repeat split. intros ty' Hne. destruct (String.eqb_spec ty ty'); [congruence|reflexivity].
Qed.
Print Assumptions C49_register.

(** two strings equal up to the case of ASCII letters: the same length and, position by position, the same character, or
    an upper-case letter (codes 65 to 90) and the lower-case letter 32 codes further *)
Definition upper_lower (u l : ascii) : Prop :=
  (65 <= nat_of_ascii u <= 90)%nat /\ nat_of_ascii l = (nat_of_ascii u + 32)%nat.
Inductive same_letters : string -> string -> Prop :=
| sl_nil : same_letters "" ""
| sl_cons c d a b : c = d \/ upper_lower c d \/ upper_lower d c -> same_letters a b -> same_letters (String c a) (String d b).
Lemma nat_of_ascii_of_nat n : (n < 256)%nat -> nat_of_ascii (ascii_of_nat n) = n.
Proof. apply nat_ascii_embedding. Qed.
Lemma nat_of_ascii_inj a b : nat_of_ascii a = nat_of_ascii b -> a = b.
Proof. intros H. rewrite <- (ascii_nat_embedding a), <- (ascii_nat_embedding b), H. reflexivity. Qed.
Lemma lower_spec c d : lower c = lower d <-> c = d \/ upper_lower c d \/ upper_lower d c.
Proof.
  assert (L : forall x, nat_of_ascii (lower x) = if (65 <=? nat_of_ascii x)%nat && (nat_of_ascii x <=? 90)%nat then (nat_of_ascii x + 32)%nat else nat_of_ascii x).
  { intros x. unfold lower. destruct ((65 <=? nat_of_ascii x)%nat && (nat_of_ascii x <=? 90)%nat) eqn:E; [|reflexivity].
    apply andb_prop in E as [E1 E2]. apply Nat.leb_le in E1. apply Nat.leb_le in E2. apply nat_of_ascii_of_nat. lia. }
  unfold upper_lower. split.
  - intros H. apply (f_equal nat_of_ascii) in H. rewrite !L in H.
    destruct (Nat.leb_spec 65 (nat_of_ascii c)), (Nat.leb_spec (nat_of_ascii c) 90), (Nat.leb_spec 65 (nat_of_ascii d)), (Nat.leb_spec (nat_of_ascii d) 90); cbn in H;
      (left; apply nat_of_ascii_inj; lia) || lia.
  - intros [->|H]; [reflexivity|]. apply nat_of_ascii_inj. rewrite !L.
    destruct (Nat.leb_spec 65 (nat_of_ascii c)), (Nat.leb_spec (nat_of_ascii c) 90), (Nat.leb_spec 65 (nat_of_ascii d)), (Nat.leb_spec (nat_of_ascii d) 90); cbn; lia.
Qed.
Lemma equal_fold_spec a b : equal_fold a b = true <-> same_letters a b.
Proof.
  split.
  - revert b. induction a as [|c a IH]; intros [|d b]; cbn; try discriminate; [constructor|].
    intros H. apply andb_prop in H as [H1 H2]. constructor; [now apply lower_spec, Ascii.eqb_eq|auto].
  - induction 1 as [|c d a b E H IH]; cbn; [reflexivity|]. apply lower_spec in E. rewrite IH. now rewrite (proj2 (Ascii.eqb_eq _ _) E).
Qed.

(** A bind mount is accepted only if bind mounts are enabled and its source is on the allow-list (or there is none), and
    a refused one has no effect on the host. *)
Theorem C49_bind : forall cfg st mk s m s' r, bind_mount cfg st mk s m = (s', r) ->
  (r = None -> b_allowed cfg = true /\ (b_sources cfg = [] \/ exists a, In a (b_sources cfg) /\ same_letters a (m_source m))) /\
  (r <> None -> s' = s) /\
  (b_allowed cfg = false \/ (b_sources cfg <> [] /\ forall a, In a (b_sources cfg) -> ~ same_letters a (m_source m)) -> r <> None) /\
  (forall d, In d (bs_created s') -> In d (bs_created s) \/ (d = m_source m /\ st d = NotExist)).
Proof.
  intros cfg st mk s m s' r H. unfold bind_mount in H.
  destruct (b_allowed cfg) eqn:Ea; cbn in H.
  2:{ injection H as <- <-. repeat split; auto; discriminate. }
  assert (Hs : source_allowed cfg (m_source m) = true <-> (b_sources cfg = [] \/ exists a, In a (b_sources cfg) /\ same_letters a (m_source m))).
  { unfold source_allowed. destruct (b_sources cfg) as [|x l]; [split; auto|]. rewrite existsb_exists. split.
    - intros (a & Ha & E). right. exists a. split; [assumption|now apply equal_fold_spec].
    - intros [E|(a & Ha & E)]; [discriminate|]. exists a. split; [assumption|now apply equal_fold_spec]. }
  destruct (source_allowed cfg (m_source m)) eqn:Es; cbn in H.
  2:{ injection H as <- <-. repeat split; auto; discriminate. }
  destruct (proj1 Hs eq_refl) as [Hok|Hok].
  - assert (Hk : forall r', (b_allowed cfg = false \/ b_sources cfg <> [] /\ (forall a, In a (b_sources cfg) -> ~ same_letters a (m_source m)) -> r' <> @None string)).
    { intros r' [E|[E _]]; congruence. }
    rewrite Ea in Hk.
    destruct (existsb _ _); [|destruct (st (m_source m)) eqn:Est; [|destruct (mk (m_source m))|]]; injection H as <- <-; repeat split; auto; try congruence; cbn; intros d [<-|Hd]; auto.
  - assert (Hk : forall r', (b_allowed cfg = false \/ b_sources cfg <> [] /\ (forall a, In a (b_sources cfg) -> ~ same_letters a (m_source m)) -> r' <> @None string)).
    { intros r' [E|[_ E]]; [congruence|]. destruct Hok as (a & Ha & E'). exfalso. eapply E; eassumption. }
    rewrite Ea in Hk.
    destruct (existsb _ _); [|destruct (st (m_source m)) eqn:Est; [|destruct (mk (m_source m))|]]; injection H as <- <-; repeat split; auto; try congruence; cbn; intros d [<-|Hd]; auto.
Qed.
Print Assumptions C49_bind.

(** "on the list" is up to letter case: on a case-sensitive file system another directory is accepted *)
Theorem C49_letter_case_refuted : exists cfg m s' , b_sources cfg <> [] /\ ~ In (m_source m) (b_sources cfg) /\
  bind_mount cfg (fun _ => NotExist) (fun _ => true) (mkBindSt [] []) m = (s', None) /\ In (m_source m) (bs_created s').
Proof.
  exists (mkBind true ["/data"]), (mkMount "i" "bind" "/Data" "/x" []), (mkBindSt ["/Data"] ["/Data"]).
  split; [discriminate|]. split; [cbn; intuition discriminate|]. split; [reflexivity|cbn; auto].
Qed.
Print Assumptions C49_letter_case_refuted.

Theorem C49_tmpfs : forall m, tmpfs_mount m = None <-> m_target m <> "" /\ m_source m = "".
Proof.
  intros m. unfold tmpfs_mount. destruct (String.eqb_spec (m_target m) ""); [split; [discriminate|tauto]|].
  destruct (String.eqb_spec (m_source m) ""); cbn; split; try discriminate; tauto.
Qed.
Print Assumptions C49_tmpfs.

Definition mreg ty := if String.eqb ty "volume" then Some 1%nat else if String.eqb ty "bind" then Some 2%nat else None.
Definition mv i ty := mkMount i ty "" "/x" [].
Example C49_nonvacuous :
  map snd (snd (exec_segs (mm0 mreg) [SMount (mv "a" "volume"); SMount (mv "b" "bind"); SLook (mv "a" "volume"); SForget (mv "a" "volume") 1; SLook (mv "b" "bind"); SLook (mv "a" "volume"); SMount (mv "c" "nfs")]))
  = [DMount 1 (mv "a" "volume"); DMount 2 (mv "b" "bind"); DFound 1; DUnmount 1 (mv "a" "volume"); DFound 2; DErr "unmounter not found"; DErr "unknown mount type: nfs"].
Proof. reflexivity. Qed.
