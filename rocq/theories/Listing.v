(** C32 and C33: listings.  datastore/postgres/postgres.go:963-1155 (GetTaskLogParts, GetJobLogParts, GetJobs) and
    1391-1491 (GetScheduledJobs); db/postgres/schema.go.

    The SQL queries are read as relations over tables.  [order by] fixes the order of rows up to ties: every answer may
    order rows with equal keys as it likes, and two requests need not agree.  The full-text condition
    [ts @@ plainto_tsquery(..)] is an arbitrary predicate. *)
From Coq Require Import Permutation Sorted.
From Verif Require Import Types World.
Open Scope string_scope.
Open Scope list_scope.
Open Scope Z_scope.

(* ------------------------------------------------------------------ *)
(** * Pages *)
Section Pages.
Context {A : Type}.
(** [before x y]: the order by clause allows [x] before [y] *)
Variable before : A -> A -> Prop.

(** Go's int is 64 bits and wraps around *)
Definition wrap (z : Z) : Z := (z + 2 ^ 63) mod 2 ^ 64 - 2 ^ 63.
(** postgres.go:1040, 965, 999, 1392 *)
Definition offset (page size : Z) : Z := wrap (wrap (page - 1) * size).
(** postgres.go:1143-1146 and the same lines of the other listings *)
Definition total_pages (count size : Z) : Z := Z.quot count size + (if Z.rem count size =? 0 then 0 else 1).
(** datastore.go:70-76 *)
Record page := mkPage { pg_items : list A; pg_number : Z; pg_size : Z; pg_total : Z; pg_count : Z }.

(** One request for a page over the rows [sel] selected by the query and the rows [cnt] of the count query (both read
    from the same state of the store).  [None]: the database refuses a negative offset. *)
Inductive answers (sel cnt : list A) (p size : Z) : option page -> Prop :=
| answers_ok order : Permutation order sel -> StronglySorted before order -> 0 <= offset p size ->
    let items := firstn (Z.to_nat size) (skipn (Z.to_nat (offset p size)) order) in
    answers sel cnt p size (Some (mkPage items p (Z.of_nat (length items)) (total_pages (Z.of_nat (length cnt)) size) (Z.of_nat (length cnt))))
| answers_refused : offset p size < 0 -> answers sel cnt p size None.

(** the pages 1, 2, ... total, one after the other *)
Fixpoint all_items (get : Z -> page) (from : Z) (n : nat) : list A :=
  match n with O => [] | S n => pg_items (get from) ++ all_items get (from + 1) n end.


(** sorted permutations are unique when ties are only between equal rows *)
Lemma sorted_unique l1 : forall l2, Permutation l1 l2 ->
  (forall x y, In x l1 -> In y l1 -> before x y -> before y x -> x = y) ->
  StronglySorted before l1 -> StronglySorted before l2 -> l1 = l2.
Proof.
  induction l1 as [|x l1 IH]; intros l2 P anti S1 S2; [now apply Permutation_nil in P|].
  destruct l2 as [|y l2]; [symmetry in P; now apply Permutation_nil in P|].
  inversion S1 as [|? ? S1' F1]; inversion S2 as [|? ? S2' F2]; subst.
  assert (x = y).
  { rewrite Forall_forall in F1, F2.
    assert (Hx : In x (y :: l2)) by (eapply Permutation_in; [exact P|now left]).
    assert (Hy : In y (x :: l1)) by (eapply Permutation_in; [symmetry; exact P|now left]).
    destruct Hx as [->|Hx]; [reflexivity|]. destruct Hy as [->|Hy]; [reflexivity|].
    apply anti; [now left|now right|now apply F1|now apply F2]. }
  subst y. f_equal. apply IH; try assumption.
  - eapply Permutation_cons_inv; eassumption.
  - intros a b Ha Hb. apply anti; now right.
Qed.

Lemma wrap_small z : - 2 ^ 63 <= z < 2 ^ 63 -> wrap z = z.
Proof. intros H. unfold wrap. rewrite Z.mod_small; lia. Qed.
Lemma offset_small p size : 1 <= p -> 1 <= size -> (p - 1) * size < 2 ^ 63 -> offset p size = (p - 1) * size.
Proof. intros Hp Hs H. unfold offset. rewrite (wrap_small (p - 1)) by nia. apply wrap_small. nia. Qed.

Lemma total_pages_spec count size : 0 <= count -> 1 <= size ->
  0 <= total_pages count size /\ count <= total_pages count size * size /\ (0 < count -> (total_pages count size - 1) * size < count) /\
  (count = 0 -> total_pages count size = 0).
Proof.
  intros Hc Hs. unfold total_pages. rewrite Z.quot_div_nonneg, Z.rem_mod_nonneg by lia.
  pose proof (Z.div_mod count size ltac:(lia)) as E. pose proof (Z.mod_pos_bound count size ltac:(lia)) as B.
  pose proof (Z.div_pos count size ltac:(lia) ltac:(lia)) as D.
  destruct (Z.eqb_spec (count mod size) 0) as [M|M]; repeat split; try nia; intros H0; subst; try nia.
Qed.

Lemma skipn_firstn_chunks (l : list A) k n : firstn n (skipn k l) ++ skipn (k + n) l = skipn k l.
Proof.
  assert (E : skipn (k + n) l = skipn n (skipn k l)).
  { revert l. induction k as [|k IH]; intros l; [reflexivity|]. destruct l as [|x l]; [now rewrite !skipn_nil|]. apply IH. }
  rewrite E. apply firstn_skipn.
Qed.

(** The pages of a listing whose count is that of the selected rows: together they are the rows, in the order asked for,
    each once; none is larger than asked for, all but the last are full; the number of pages is the least that suffices;
    the pages after the last are empty. *)
Definition partition (rows : list A) (size : Z) (get : Z -> page) (total : Z) : Prop :=
  Permutation (all_items get 1 (Z.to_nat total)) rows /\ StronglySorted before (all_items get 1 (Z.to_nat total)) /\
  (forall p, 1 <= p <= total -> Z.of_nat (length (pg_items (get p))) <= size /\ (p < total -> Z.of_nat (length (pg_items (get p))) = size) /\
      pg_items (get p) <> [] /\ pg_number (get p) = p /\ pg_total (get p) = total /\ pg_count (get p) = Z.of_nat (length rows) /\
      pg_size (get p) = Z.of_nat (length (pg_items (get p)))) /\
  (* least number of pages *)
  (forall n, 0 <= n -> Z.of_nat (length rows) <= n * size -> total <= n).

Lemma answers_inv sel cnt p size g : answers sel cnt p size (Some g) -> exists order, Permutation order sel /\ StronglySorted before order /\
  0 <= offset p size /\ let items := firstn (Z.to_nat size) (skipn (Z.to_nat (offset p size)) order) in
  g = mkPage items p (Z.of_nat (length items)) (total_pages (Z.of_nat (length cnt)) size) (Z.of_nat (length cnt)).
Proof. intros H. inversion H as [ord P S O E|]; subst. exists ord. auto. Qed.
Lemma pages_partition rows size get total :
  1 <= size -> (forall x y, In x rows -> In y rows -> before x y -> before y x -> x = y) ->
  Z.of_nat (length rows) + size < 2 ^ 63 ->
  total = total_pages (Z.of_nat (length rows)) size ->
  (forall p, 1 <= p <= total -> answers rows rows p size (Some (get p))) ->
  (rows = [] -> total = 0) /\ partition rows size get total.
Proof.
  intros Hs anti Hb Ht Ha.
  destruct (total_pages_spec (Z.of_nat (length rows)) size ltac:(lia) Hs) as (T0 & T1 & T2 & T3). rewrite <- Ht in *.
  split; [intros ->; apply T3; reflexivity|].
  destruct (Z.eqb_spec total 0) as [Z0|Z0].
  - assert (rows = []) by (destruct rows; [reflexivity|cbn [length] in *; lia]). subst rows. rewrite Z0. unfold partition. cbn.
    split; [constructor|]. split; [constructor|]. split; [intros p Hp; lia|intros; lia].
  - (* fix the order of the first answer: all others use the same *)
    pose proof (Ha 1 ltac:(lia)) as H1. apply answers_inv in H1 as (ord & P & S & _ & _).
    assert (Hp : forall p, 1 <= p <= total -> get p = mkPage (firstn (Z.to_nat size) (skipn (Z.to_nat ((p - 1) * size)) ord)) p
        (Z.of_nat (length (firstn (Z.to_nat size) (skipn (Z.to_nat ((p - 1) * size)) ord)))) total (Z.of_nat (length rows))).
    { intros p Hp. pose proof (Ha p Hp) as H. apply answers_inv in H as (ord' & P' & S' & O' & E'). cbn zeta in E'. rewrite E'.
      assert (ord' = ord).
      { apply sorted_unique; try assumption.
        - rewrite P', P. reflexivity.
        - intros x y Hx Hy. apply anti; (eapply Permutation_in; [exact P'|assumption]). }
      subst ord'. rewrite (offset_small p size) by nia. rewrite <- Ht. reflexivity. }
    assert (L : length ord = length rows) by (apply Permutation_length; exact P).
    assert (LEN : forall p, 1 <= p <= total -> Z.of_nat (length (pg_items (get p))) = Z.min size (Z.of_nat (length rows) - (p - 1) * size)).
    { intros p H. rewrite Hp by exact H. cbn [pg_items]. rewrite firstn_length, skipn_length, L. nia. }
    assert (ALL : forall n p, 1 <= p -> p + Z.of_nat n - 1 = total ->
              all_items get p n = skipn (Z.to_nat ((p - 1) * size)) ord).
    { induction n as [|n IH]; intros p Hp1 He.
      - cbn. symmetry. apply skipn_all2. rewrite L. nia.
      - cbn [all_items]. rewrite IH by lia. rewrite (Hp p) by lia. cbn [pg_items].
        rewrite <- (skipn_firstn_chunks ord (Z.to_nat ((p - 1) * size)) (Z.to_nat size)) at 2. f_equal. f_equal. nia. }
    unfold partition. rewrite (ALL (Z.to_nat total) 1) by lia. replace ((1 - 1) * size) with 0 by ring. cbn [Z.to_nat skipn].
    split; [exact P|]. split; [exact S|]. split; [|intros n Hn Hc; nia].
    intros p Hr. pose proof (LEN p Hr) as E. split; [lia|]. split; [nia|]. split.
    { intros Hnil. rewrite Hnil in E. cbn in E. nia. }
    rewrite (Hp p Hr). cbn. auto.
Qed.
Lemma page_beyond rows size p g : 1 <= size -> Z.of_nat (length rows) + size < 2 ^ 63 ->
  total_pages (Z.of_nat (length rows)) size < p -> (p - 1) * size < 2 ^ 63 ->
  answers rows rows p size g -> exists q, g = Some q /\ pg_items q = [].
Proof.
  intros Hs Hb Hp Ho H. destruct (total_pages_spec (Z.of_nat (length rows)) size ltac:(lia) Hs) as (T0 & T1 & T2 & T3).
  pose proof (offset_small p size ltac:(lia) Hs Ho) as E.
  destruct H as [ord P S O1 items|O1]; [|nia]. eexists. split; [reflexivity|]. cbn [pg_items]. subst items.
  rewrite skipn_all2; [apply firstn_nil|]. rewrite (Permutation_length P), E. nia.
Qed.
End Pages.
Arguments mkPage {A}. Arguments pg_items {A}. Arguments pg_number {A}. Arguments pg_size {A}. Arguments pg_total {A}. Arguments pg_count {A}.

(* ------------------------------------------------------------------ *)
(** * The tables behind the job listing *)
(** schema.go:76-104 (columns used by the listing) and 120-125 *)
Record jrow := mkJrow { jr_id : id; jr_created : time; jr_text : string; jr_tags : list string }.
Record prow := mkProw { pr_job : id; pr_user : option id; pr_role : option id }.
(** schema.go:20-48: users (id, username_), roles (id, slug), users_roles *)
Record db := mkDb { d_users : list (id * string); d_roles : list (id * string); d_urs : list (id * id); d_jobs : list jrow; d_perms : list prow }.

Definition find_key (n : string) (l : list (id * string)) : option id :=
  match find (fun e : id * string => String.eqb (snd e) n) l with Some (i, _) => Some i | None => None end.
Definition has_id (i : id) (l : list (id * string)) : bool := existsb (fun e : id * string => N.eqb (fst e) i) l.
Definition is_id (o : option id) (i : id) : bool := match o with Some x => N.eqb x i | None => false end.

Section Sql.
(** ts @@ plainto_tsquery('english', term) *)
Variable text_matches : string -> string -> bool.
(** postgres.go:1043-1057 (user_info, role_info, job_perms_info): the permission row gives [cu] access.  In SQL a
    comparison with NULL, or with the empty sub-query of an unknown user, is not true. *)
Definition granted (d : db) (cu : string) (p : prow) : bool :=
  match find_key cu (d_users d) with
  | Some u => is_id (pr_user p) u ||
      match pr_role p with Some r => existsb (fun e : id * id => N.eqb (fst e) u && N.eqb (snd e) r) (d_urs d) | None => false end
  | None => false
  end.
(** postgres.go:1059-1077 *)
Definition row_selected (d : db) (cu term : string) (tags : list string) (r : jrow) : bool :=
  (String.eqb term "" || text_matches (jr_text r) term) &&
  (match tags with [] => true | _ => existsb (fun t => existsb (String.eqb t) tags) (jr_tags r) end) &&
  (String.eqb cu "" ||
   negb (existsb (fun p => N.eqb (pr_job p) (jr_id r)) (d_perms d)) ||
   existsb (fun p => granted d cu p && N.eqb (pr_job p) (jr_id r)) (d_perms d)).
Definition selected (d : db) (cu term : string) (tags : list string) : list jrow := filter (row_selected d cu term tags) (d_jobs d).
(** order by created_at desc *)
Definition newer (x y : jrow) : Prop := jr_created y <= jr_created x.
(** postgres.go:1037-1155: GetJobs; both queries carry the same condition *)
Definition get_jobs (d : db) (cu term : string) (tags : list string) (p size : Z) (r : option (@page jrow)) : Prop :=
  answers newer (selected d cu term tags) (selected d cu term tags) p size r.
End Sql.

(* ------------------------------------------------------------------ *)
(** * Histories of the store *)
(** What a permission of a submitted job names (job.go Permission): a role if it has one, otherwise a user *)
Inductive perm := PUser (username : string) | PRole (slug : string).
Inductive dbop :=
| DUser (i : id) (name : string)                       (* postgres.go:1168-1181 *)
| DRole (i : id) (slug : string)                       (* postgres.go:1183-1196 *)
| DAssign (u r : id)                                   (* postgres.go:1230-1240 *)
| DUnassign (u r : id)                                 (* postgres.go:1242-1248 *)
| DJob (r : jrow) (ps : list perm)                     (* postgres.go:593-694 *)
| DDelete (js : list id).                              (* postgres.go:937-961 *)

(** postgres.go:664-690: the row of one permission; an unknown name becomes '' and violates the foreign key *)
Definition perm_row (d : db) (j : id) (p : perm) : option prow :=
  match p with
  | PUser n => match find_key n (d_users d) with Some u => Some (mkProw j (Some u) None) | None => None end
  | PRole s => match find_key s (d_roles d) with Some r => Some (mkProw j None (Some r)) | None => None end
  end.
Fixpoint perm_rows (d : db) (j : id) (ps : list perm) : option (list prow) :=
  match ps with
  | [] => Some []
  | p :: ps => match perm_row d j p, perm_rows d j ps with Some r, Some rs => Some (r :: rs) | _, _ => None end
  end.
(** One operation; a violated constraint of the schema leaves the tables as they are (each runs in its own transaction) *)
Definition dbdo (o : dbop) (d : db) : db :=
  match o with
  | DUser i n => if has_id i (d_users d) then d else match find_key n (d_users d) with Some _ => d | None =>
                   mkDb (d_users d ++ [(i, n)]) (d_roles d) (d_urs d) (d_jobs d) (d_perms d) end
  | DRole i s => if has_id i (d_roles d) then d else match find_key s (d_roles d) with Some _ => d | None =>
                   mkDb (d_users d) (d_roles d ++ [(i, s)]) (d_urs d) (d_jobs d) (d_perms d) end
  | DAssign u r => if has_id u (d_users d) && has_id r (d_roles d) && negb (existsb (fun e : id * id => N.eqb (fst e) u && N.eqb (snd e) r) (d_urs d))
                   then mkDb (d_users d) (d_roles d) (d_urs d ++ [(u, r)]) (d_jobs d) (d_perms d) else d
  | DUnassign u r => mkDb (d_users d) (d_roles d) (filter (fun e : id * id => negb (N.eqb (fst e) u && N.eqb (snd e) r)) (d_urs d)) (d_jobs d) (d_perms d)
  | DJob r ps => if existsb (fun x => N.eqb (jr_id x) (jr_id r)) (d_jobs d) then d else
                 match perm_rows d (jr_id r) ps with
                 | Some rows => mkDb (d_users d) (d_roles d) (d_urs d) (d_jobs d ++ [r]) (d_perms d ++ rows)
                 | None => d
                 end
  | DDelete js => mkDb (d_users d) (d_roles d) (d_urs d)
                    (filter (fun r => negb (existsb (N.eqb (jr_id r)) js)) (d_jobs d))
                    (filter (fun p => negb (existsb (N.eqb (pr_job p)) js)) (d_perms d))
  end.
Fixpoint dbs (os : list dbop) (d : db) : db := match os with [] => d | o :: os => dbs os (dbdo o d) end.
Definition nodb : db := mkDb [] [] [] [] [].

(** ** Specification *)
(** The permissions a stored job was submitted with, from the history alone: those of the last submission of that
    identifier that was accepted *)
Inductive submitted_with (d0 : db) : list dbop -> jrow -> list perm -> Prop :=
| sub_here os r ps : ~ In (jr_id r) (map jr_id (d_jobs (dbs os d0))) -> perm_rows (dbs os d0) (jr_id r) ps <> None ->
    submitted_with d0 (os ++ [DJob r ps]) r ps
| sub_later os r ps o : submitted_with d0 os r ps -> In r (d_jobs (dbdo o (dbs os d0))) -> submitted_with d0 (os ++ [o]) r ps.
(** the user named [cu] has the role [slug] *)
Definition holds_role (d : db) (cu slug : string) : Prop :=
  exists u r, In (u, cu) (d_users d) /\ In (r, slug) (d_roles d) /\ In (u, r) (d_urs d).
Definition may_see (d : db) (cu : string) (ps : list perm) : Prop :=
  cu = "" \/ ps = [] \/ (In (PUser cu) ps) \/ (exists s, In (PRole s) ps /\ holds_role d cu s).

(** ** Invariant *)
(** each permission of a job has its row and each row its permission *)
Definition perm_matches (d : db) (j : id) (p : perm) (x : prow) : Prop :=
  pr_job x = j /\
  match p with
  | PUser n => pr_role x = None /\ exists u, pr_user x = Some u /\ In (u, n) (d_users d)
  | PRole s => pr_user x = None /\ exists r, pr_role x = Some r /\ In (r, s) (d_roles d)
  end.
Definition rows_of (d : db) (j : id) : list prow := filter (fun p => N.eqb (pr_job p) j) (d_perms d).
Record dbok (d : db) : Prop := {
  ok_uid : NoDup (map fst (d_users d)); ok_uname : NoDup (map snd (d_users d));
  ok_rid : NoDup (map fst (d_roles d)); ok_rslug : NoDup (map snd (d_roles d));
  ok_jid : NoDup (map jr_id (d_jobs d));
  ok_pjob : forall p, In p (d_perms d) -> In (pr_job p) (map jr_id (d_jobs d)) }.

Lemma filter_nil_iff {X} (f : X -> bool) l : filter f l = [] <-> forall x, In x l -> f x = false.
Proof.
  induction l as [|a l IH]; cbn; [tauto|]. destruct (f a) eqn:E.
  - split; [discriminate|]. intros H. rewrite (H a (or_introl eq_refl)) in E. discriminate.
  - rewrite IH. split; [intros H x [<-|Hx]; auto|auto].
Qed.
Lemma filter_all {X} (f : X -> bool) l : (forall x, In x l -> f x = true) -> filter f l = l.
Proof. induction l as [|a l IH]; cbn; intros H; [reflexivity|]. rewrite (H a (or_introl eq_refl)), IH; auto. Qed.
Lemma Forall2_weaken {X Y} (P Q : X -> Y -> Prop) l l' : (forall a b, P a b -> Q a b) -> Forall2 P l l' -> Forall2 Q l l'.
Proof. intros H. induction 1; constructor; auto. Qed.
Lemma find_key_in n l i : find_key n l = Some i -> In (i, n) l.
Proof.
  unfold find_key. destruct (find _ l) as [[x m]|] eqn:F; [|discriminate]. intros E; injection E as <-.
  apply find_some in F as (H & E). cbn in E. apply String.eqb_eq in E. now subst.
Qed.
Lemma find_key_none n l : find_key n l = None -> ~ In n (map snd l).
Proof.
  unfold find_key. destruct (find _ l) as [[x m]|] eqn:F; [discriminate|]. intros _ H. apply in_map_iff in H as ([y m] & E & H). cbn in E; subst.
  pose proof (find_none _ _ F _ H) as X. cbn in X. now rewrite String.eqb_refl in X.
Qed.
Lemma nodup_snd_inj {X Y} (l : list (X * Y)) a b n : NoDup (map snd l) -> In (a, n) l -> In (b, n) l -> a = b.
Proof.
  induction l as [|[x m] l IH]; cbn; intros N H1 H2; [contradiction|]. inversion N as [|? ? N1 N2]; subst.
  destruct H1 as [H1|H1], H2 as [H2|H2]; [congruence|..].
  - injection H1 as -> ->. destruct N1. apply in_map_iff. now exists (b, n).
  - injection H2 as -> ->. destruct N1. apply in_map_iff. now exists (a, n).
  - auto.
Qed.
Lemma nodup_fst_inj {X Y} (l : list (X * Y)) a n m : NoDup (map fst l) -> In (a, n) l -> In (a, m) l -> n = m.
Proof.
  induction l as [|[x y] l IH]; cbn; intros N H1 H2; [contradiction|]. inversion N as [|? ? N1 N2]; subst.
  destruct H1 as [H1|H1], H2 as [H2|H2]; [congruence|..].
  - injection H1 as -> ->. destruct N1. apply in_map_iff. now exists (a, m).
  - injection H2 as -> ->. destruct N1. apply in_map_iff. now exists (a, n).
  - auto.
Qed.
Lemma find_key_some n l i : NoDup (map snd l) -> In (i, n) l -> find_key n l = Some i.
Proof.
  intros N H. destruct (find_key n l) as [j|] eqn:F.
  - apply find_key_in in F. f_equal. eapply nodup_snd_inj; eassumption.
  - apply find_key_none in F. destruct F. apply in_map_iff. now exists (i, n).
Qed.
Lemma has_id_spec i l : has_id i l = true <-> In i (map fst l).
Proof.
  unfold has_id. rewrite existsb_exists, in_map_iff. split; intros (x & A & B); exists x.
  - apply N.eqb_eq in B. auto. - split; [assumption|]. now apply N.eqb_eq.
Qed.
Lemma nodup_snoc {X} (l : list X) x : NoDup l -> ~ In x l -> NoDup (l ++ [x]).
Proof. intros N H. apply NoDup_Add with (a := x) (l := l); [|now split]. rewrite <- (app_nil_r l) at 1. apply Add_app. Qed.
Lemma perm_rows_spec d j ps rows : perm_rows d j ps = Some rows -> Forall2 (perm_matches d j) ps rows.
Proof.
  revert rows. induction ps as [|p ps IH]; intros rows H; cbn in H; [injection H as <-; constructor|].
  destruct (perm_row d j p) as [x|] eqn:E; [|discriminate]. destruct (perm_rows d j ps) as [xs|]; [|discriminate]. injection H as <-.
  constructor; [|now apply IH]. destruct p as [n|s]; cbn in E.
  - destruct (find_key n (d_users d)) as [u|] eqn:F; [injection E as <-|discriminate]. split; [reflexivity|]. split; [reflexivity|]. exists u. split; [reflexivity|now apply find_key_in].
  - destruct (find_key s (d_roles d)) as [u|] eqn:F; [injection E as <-|discriminate]. split; [reflexivity|]. split; [reflexivity|]. exists u. split; [reflexivity|now apply find_key_in].
Qed.
Lemma perm_rows_job d j ps rows : perm_rows d j ps = Some rows -> forall x, In x rows -> pr_job x = j.
Proof. intros H x Hx. apply perm_rows_spec in H. induction H as [|? ? ? ? M _ IH]; [destruct Hx|]. destruct Hx as [<-|Hx]; [apply M|now apply IH]. Qed.

Lemma dbok_do o d : dbok d -> dbok (dbdo o d).
Proof.
  intros [U1 U2 R1 R2 J P]. destruct o as [i n|i s|u r|u r|row ps|js]; cbn.
  - destruct (has_id i (d_users d)) eqn:H; [now split|]. destruct (find_key n (d_users d)) eqn:F; [now split|]. split; cbn; try assumption.
    + rewrite map_app. apply nodup_snoc; [assumption|]. intros K. cbn [fst] in K. apply has_id_spec in K. rewrite H in K. discriminate.
    + rewrite map_app. apply nodup_snoc; [assumption|]. now apply find_key_none.
  - destruct (has_id i (d_roles d)) eqn:H; [now split|]. destruct (find_key s (d_roles d)) eqn:F; [now split|]. split; cbn; try assumption.
    + rewrite map_app. apply nodup_snoc; [assumption|]. intros K. cbn [fst] in K. apply has_id_spec in K. rewrite H in K. discriminate.
    + rewrite map_app. apply nodup_snoc; [assumption|]. now apply find_key_none.
  - destruct (_ && _); now split.
  - now split.
  - destruct (existsb _ (d_jobs d)) eqn:E; [now split|]. destruct (perm_rows d (jr_id row) ps) as [rows|] eqn:F; [|now split]. split; cbn; try assumption.
    + rewrite map_app. apply nodup_snoc; [assumption|]. intros K. apply in_map_iff in K as (x & Ex & Hx).
      rewrite <- not_true_iff_false, existsb_exists in E. apply E. exists x. split; [assumption|]. now apply N.eqb_eq.
    + intros p Hp. rewrite map_app, in_app_iff. apply in_app_iff in Hp as [Hp|Hp]; [left; now apply P|right; left]. symmetry. eapply perm_rows_job; eassumption.
  - split; cbn; try assumption.
    + clear - J. induction (d_jobs d) as [|x l IH]; cbn; [constructor|]. inversion J as [|? ? J1 J2]; subst. destruct (negb _); cbn; [|auto].
      constructor; [|auto]. intros K. apply J1. apply in_map_iff in K as (y & E & K). apply filter_In in K as (K & _). apply in_map_iff. eauto.
    + intros p Hp. apply filter_In in Hp as (Hp & E). specialize (P p Hp). apply in_map_iff in P as (x & Ex & Hx). apply in_map_iff. exists x.
      split; [assumption|]. apply filter_In. split; [assumption|]. now rewrite Ex.
Qed.
Lemma dbs_app os os' d : dbs (os ++ os') d = dbs os' (dbs os d).
Proof. revert d. induction os as [|o os IH]; intros d; cbn; [reflexivity|apply IH]. Qed.
Lemma dbok_dbs os d : dbok d -> dbok (dbs os d).
Proof. revert d. induction os as [|o os IH]; intros d H; cbn; [assumption|]. apply IH. now apply dbok_do. Qed.
Lemma dbok_nodb : dbok nodb. Proof. split; cbn; try constructor. contradiction. Qed.

Lemma rows_of_nil d j : dbok d -> ~ In j (map jr_id (d_jobs d)) -> rows_of d j = [].
Proof.
  intros [_ _ _ _ _ P] H. unfold rows_of. induction (d_perms d) as [|p l IH]; cbn; [reflexivity|].
  destruct (N.eqb_spec (pr_job p) j) as [E|E]; [|apply IH; intros q Hq; apply P; now right].
  destruct H. rewrite <- E. apply P. now left.
Qed.
(** users and roles are never deleted *)
Lemma perm_matches_grow d d' j p x : incl (d_users d) (d_users d') -> incl (d_roles d) (d_roles d') -> perm_matches d j p x -> perm_matches d' j p x.
Proof.
  intros HU HR (E & M). split; [exact E|]. destruct p; destruct M as (M & u & E1 & H); split; try assumption; exists u; split; auto.
Qed.
Lemma grow_do o d : incl (d_users d) (d_users (dbdo o d)) /\ incl (d_roles d) (d_roles (dbdo o d)).
Proof.
  destruct o as [i n|i s|u r|u r|row ps|js]; cbn; try (split; apply incl_refl).
  - destruct (has_id _ _); [split; apply incl_refl|]. destruct (find_key _ _); [split; apply incl_refl|]. cbn. split; [apply incl_appl, incl_refl|apply incl_refl].
  - destruct (has_id _ _); [split; apply incl_refl|]. destruct (find_key _ _); [split; apply incl_refl|]. cbn. split; [apply incl_refl|apply incl_appl, incl_refl].
  - destruct (_ && _); split; apply incl_refl.
  - destruct (existsb _ _); [split; apply incl_refl|]. destruct (perm_rows _ _ _); split; apply incl_refl.
Qed.
Lemma rows_of_do o d r : dbok d -> In r (d_jobs d) -> In r (d_jobs (dbdo o d)) -> rows_of (dbdo o d) (jr_id r) = rows_of d (jr_id r).
Proof.
  intros OK H0 H. unfold rows_of. destruct o as [i n|i s|u q|u q|row ps|js]; cbn in *.
  - destruct (has_id _ _); [reflexivity|]. destruct (find_key _ _); reflexivity.
  - destruct (has_id _ _); [reflexivity|]. destruct (find_key _ _); reflexivity.
  - destruct (_ && _); reflexivity.
  - reflexivity.
  - destruct (existsb _ (d_jobs d)) eqn:E; [reflexivity|]. destruct (perm_rows d (jr_id row) ps) as [rows|] eqn:F; [|reflexivity]. cbn in *.
    rewrite filter_app. rewrite (proj2 (filter_nil_iff _ rows)); [apply app_nil_r|].
    intros x Hx. rewrite (perm_rows_job _ _ _ _ F x Hx). apply N.eqb_neq. intros K.
    rewrite <- not_true_iff_false, existsb_exists in E. apply E. exists r. split; [assumption|]. now apply N.eqb_eq.
  - apply filter_In in H as (_ & H). induction (d_perms d) as [|p l IH]; cbn; [reflexivity|].
    destruct (N.eqb_spec (pr_job p) (jr_id r)) as [K|K].
    + rewrite K, H. cbn. rewrite K, N.eqb_refl. now f_equal.
    + destruct (negb (existsb (N.eqb (pr_job p)) js)); cbn; [|assumption]. apply N.eqb_neq in K. now rewrite K.
Qed.
Lemma submitted_rows os r ps : submitted_with nodb os r ps -> In r (d_jobs (dbs os nodb)) /\
  Forall2 (perm_matches (dbs os nodb) (jr_id r)) ps (rows_of (dbs os nodb) (jr_id r)).
Proof.
  induction 1 as [os r ps Hn Hp|os r ps o _ (IH1 & IH2) Hin].
  - rewrite dbs_app. cbn [dbs]. pose proof (dbok_dbs os nodb dbok_nodb) as OK. set (d := dbs os nodb) in *. cbn.
    assert (E : existsb (fun x => N.eqb (jr_id x) (jr_id r)) (d_jobs d) = false).
    { rewrite <- not_true_iff_false, existsb_exists. intros (x & Hx & E). apply N.eqb_eq in E. apply Hn. rewrite <- E. now apply in_map. }
    rewrite E. destruct (perm_rows d (jr_id r) ps) as [rows|] eqn:F; [|congruence]. cbn. split; [apply in_app_iff; right; now left|].
    unfold rows_of. cbn. rewrite filter_app. fold (rows_of d (jr_id r)). rewrite (rows_of_nil d _ OK Hn). cbn [app].
    assert (K : filter (fun p => N.eqb (pr_job p) (jr_id r)) rows = rows).
    { apply filter_all. intros x Hx. apply N.eqb_eq. eapply perm_rows_job; eassumption. }
    rewrite K. apply perm_rows_spec in F. eapply Forall2_weaken; [|exact F]. intros a b M. exact M.
  - rewrite dbs_app. cbn [dbs]. split; [assumption|]. rewrite rows_of_do; [|apply dbok_dbs, dbok_nodb|assumption|assumption].
    eapply Forall2_weaken; [|exact IH2]. intros a b. apply perm_matches_grow; apply grow_do.
Qed.

Definition asked_for (text_matches : string -> string -> bool) (term : string) (tags : list string) (r : jrow) : Prop :=
  (term <> "" -> text_matches (jr_text r) term = true) /\ (tags <> [] -> exists t, In t tags /\ In t (jr_tags r)).
Lemma visibility0 : forall text_matches os r ps cu,
  submitted_with nodb os r ps ->
  In r (selected text_matches (dbs os nodb) cu "" []) <-> may_see (dbs os nodb) cu ps.
Proof.
  intros tm os r ps cu H. destruct (submitted_rows os r ps H) as (Hin & M). pose proof (dbok_dbs os nodb dbok_nodb) as OK. set (d := dbs os nodb) in *.
  unfold selected, row_selected. rewrite filter_In. cbn [String.eqb orb andb]. rewrite !orb_true_iff, negb_true_iff, String.eqb_eq.
  assert (X1 : existsb (fun p => N.eqb (pr_job p) (jr_id r)) (d_perms d) = false <-> ps = []).
  { rewrite <- not_true_iff_false, existsb_exists. split.
    - intros K. destruct ps as [|p ps]; [reflexivity|]. inversion M as [|p' x ps' rows' Mx Mr E1 E2]. destruct K. exists x.
      assert (Hx : In x (rows_of d (jr_id r))) by (rewrite <- E2; now left). unfold rows_of in Hx. now apply filter_In in Hx.
    - intros -> (x & Hx & E). assert (K : In x (rows_of d (jr_id r))) by (apply filter_In; auto). inversion M as [E2|]. destruct (rows_of d (jr_id r)); [exact K|discriminate]. }
  rewrite X1.
  assert (X2 : existsb (fun p => granted d cu p && N.eqb (pr_job p) (jr_id r)) (d_perms d) = true <-> In (PUser cu) ps \/ exists s, In (PRole s) ps /\ holds_role d cu s).
  { assert (Y : existsb (fun p => granted d cu p && N.eqb (pr_job p) (jr_id r)) (d_perms d) = true <-> exists x, In x (rows_of d (jr_id r)) /\ granted d cu x = true).
    { rewrite existsb_exists. unfold rows_of. split.
      - intros (x & Hx & E). apply andb_true_iff in E as (E1 & E2). exists x. split; [apply filter_In; auto|assumption].
      - intros (x & Hx & E). apply filter_In in Hx as (Hx & E1). exists x. split; [assumption|]. now rewrite E, E1. }
    rewrite Y. clear Y X1 Hin H. induction M as [|p x ps rows Mx Mr IH].
    - split; [intros (x & [] & _)|intros [[]|(s & [] & _)]].
    - assert (G : granted d cu x = true <-> p = PUser cu \/ exists s, p = PRole s /\ holds_role d cu s).
      { destruct OK as [U1 U2 R1 R2 _ _]. destruct Mx as (_ & Mx). unfold granted. destruct p as [n|s].
        - destruct Mx as (Er & u & Eu & Hu). rewrite Er, Eu. split.
          + destruct (find_key cu (d_users d)) as [v|] eqn:F; [|discriminate]. rewrite orb_false_r. cbn. intros E. apply N.eqb_eq in E. subst v.
            left. f_equal. apply find_key_in in F. exact (nodup_fst_inj _ _ _ _ U1 Hu F).
          + intros [E|(s & E & _)]; [|discriminate]. injection E as ->. rewrite (find_key_some _ _ _ U2 Hu). cbn. now rewrite N.eqb_refl.
        - destruct Mx as (Eu & q & Er & Hq). rewrite Er, Eu. cbn [is_id orb]. split.
          + destruct (find_key cu (d_users d)) as [v|] eqn:F; [|discriminate]. cbn. intros E. apply existsb_exists in E as ([a b] & Hab & E).
            cbn in E. apply andb_true_iff in E as (E1 & E2). apply N.eqb_eq in E1, E2. subst a b. right. exists s. split; [reflexivity|].
            exists v, q. split; [now apply find_key_in|]. auto.
          + intros [E|(s' & E & u & q' & K1 & K2 & K3)]; [discriminate|]. injection E as <-.
            rewrite (find_key_some _ _ _ U2 K1). assert (q' = q) as -> by exact (nodup_snd_inj _ _ _ _ R2 K2 Hq). cbn.
            apply existsb_exists. exists (u, q). split; [assumption|]. cbn. now rewrite !N.eqb_refl. }
      split.
      + intros (y & [<-|Hy] & E).
        * apply G in E as [->|(s & -> & K)]; [left; now left|right; exists s; split; [now left|assumption]].
        * destruct (proj1 IH (ex_intro _ y (conj Hy E))) as [K|(s & K & L)]; [left; now right|right; exists s; split; [now right|assumption]].
      + intros [[->|K]|(s & [->|K] & L)].
        * exists x. split; [now left|]. apply G. now left.
        * destruct (proj2 IH (or_introl K)) as (y & Hy & E). exists y. split; [now right|assumption].
        * exists x. split; [now left|]. apply G. right. eauto.
        * destruct (proj2 IH (or_intror (ex_intro _ s (conj K L)))) as (y & Hy & E). exists y. split; [now right|assumption]. }
  rewrite X2. unfold may_see. intuition.
Qed.
Lemma asked_for_spec tm term tags r :
  (String.eqb term "" || tm (jr_text r) term) && (match tags with [] => true | _ => existsb (fun t => existsb (String.eqb t) tags) (jr_tags r) end) = true <->
  asked_for tm term tags r.
Proof.
  unfold asked_for. rewrite andb_true_iff, orb_true_iff. split.
  - intros [A B]. split.
    + intros Hn. destruct A as [A|A]; [|exact A]. apply String.eqb_eq in A. contradiction.
    + intros Hn. destruct tags as [|t0 tags]; [contradiction|]. apply existsb_exists in B as (t & Ht & B). apply existsb_exists in B as (u & Hu & B).
      apply String.eqb_eq in B. subst u. exists t. auto.
  - intros [A B]. split.
    + destruct (String.eqb_spec term ""); [left; reflexivity|right; auto].
    + destruct tags as [|t0 tags]; [reflexivity|]. destruct (B ltac:(discriminate)) as (t & Ht & Hr).
      apply existsb_exists. exists t. split; [assumption|]. apply existsb_exists. exists t. split; [assumption|apply String.eqb_refl].
Qed.
(** C32: a listing shows a stored job to [cu] exactly if it meets the search term (if one is given) and has one of the
    tags asked for (if any is), and the listing is anonymous, or the job was submitted without permissions, or one of them
    names the user, or a role the user has. *)
Theorem C32_visibility : forall text_matches os r ps cu term tags,
  submitted_with nodb os r ps ->
  In r (selected text_matches (dbs os nodb) cu term tags) <-> may_see (dbs os nodb) cu ps /\ asked_for text_matches term tags r.
Proof.
  intros tm os r ps cu term tags H. rewrite <- (visibility0 tm os r ps cu H), <- asked_for_spec. unfold selected. rewrite !filter_In.
  unfold row_selected. cbn [String.eqb orb andb]. rewrite (andb_true_iff (_ && _)). tauto.
Qed.
(** and every stored job was submitted with some permissions, so the above covers every row *)
Theorem C32_every_row : forall os r, In r (d_jobs (dbs os nodb)) -> exists ps, submitted_with nodb os r ps.
Proof.
  intros os. induction os as [|o os IH] using rev_ind; intros r H; [destruct H|]. rewrite dbs_app in H. cbn [dbs] in H.
  assert (K : In r (d_jobs (dbs os nodb)) -> exists ps, submitted_with nodb (os ++ [o]) r ps).
  { intros H0. destruct (IH r H0) as (ps & Hs). exists ps. now apply sub_later. }
  pose proof H as H'. set (d := dbs os nodb) in *. destruct o as [i n|i s|u q|u q|row ps|js]; cbn in H'.
  - apply K. destruct (has_id _ _); [assumption|]. destruct (find_key _ _); assumption.
  - apply K. destruct (has_id _ _); [assumption|]. destruct (find_key _ _); assumption.
  - apply K. destruct (_ && _); assumption.
  - now apply K.
  - destruct (existsb _ (d_jobs d)) eqn:E; [now apply K|]. destruct (perm_rows d (jr_id row) ps) as [rows|] eqn:F; [|now apply K]. cbn in H'.
    apply in_app_iff in H' as [H'|[<-|[]]]; [now apply K|]. exists ps. apply sub_here.
    + intros X. apply in_map_iff in X as (x & Ex & Hx). rewrite <- not_true_iff_false, existsb_exists in E. apply E. exists x. split; [assumption|now apply N.eqb_eq].
    + fold d. congruence.
  - apply K. now apply filter_In in H'.
Qed.

(** C33 for jobs: with distinct creation times, the pages partition the jobs shown, newest first *)
Theorem C33_job_pages : forall text_matches d cu term tags size get total,
  let rows := selected text_matches d cu term tags in
  1 <= size -> NoDup (map jr_created rows) -> Z.of_nat (length rows) + size < 2 ^ 63 ->
  total = total_pages (Z.of_nat (length rows)) size ->
  (forall p, 1 <= p <= total -> get_jobs text_matches d cu term tags p size (Some (get p))) ->
  partition newer rows size get total.
Proof.
  intros tm d cu term tags size get total rows Hs Hn Hb Ht Ha. eapply pages_partition; try eassumption.
  intros x y Hx Hy A B. unfold newer in *. clear - Hn Hx Hy A B. fold rows in Hn. revert Hn Hx Hy. induction rows as [|z l IH]; cbn; [tauto|].
  intros N Hx Hy. inversion N as [|? ? N1 N2]; subst. destruct Hx as [<-|Hx], Hy as [<-|Hy]; auto.
  - destruct N1. apply in_map_iff. exists y. split; [lia|assumption].
  - destruct N1. apply in_map_iff. exists x. split; [lia|assumption].
Qed.
Theorem C33_beyond_the_end : forall text_matches d cu term tags size p g,
  let rows := selected text_matches d cu term tags in
  1 <= size -> Z.of_nat (length rows) + size < 2 ^ 63 -> total_pages (Z.of_nat (length rows)) size < p -> (p - 1) * size < 2 ^ 63 ->
  get_jobs text_matches d cu term tags p size g -> exists q, g = Some q /\ pg_items q = [].
Proof. intros tm d cu term tags size p g rows. apply page_beyond. Qed.

(** ** Where it fails *)
(** Two jobs created at the same instant: the answers for pages 1 and 2 may both show the first and never the second. *)
Definition tie1 := mkJrow 1%N 5 "" []. Definition tie2 := mkJrow 2%N 5 "" [].
Theorem C33_ties_refuted : exists d get,
  (forall p, 1 <= p <= 2 -> get_jobs (fun _ _ => true) d "" "" [] p 1 (Some (get p))) /\
  pg_total (get 1) = 2 /\ ~ Permutation (all_items get 1 2) (d_jobs d).
Proof.
  exists (mkDb [] [] [] [tie1; tie2] []), (fun p => mkPage [tie1] p 1 2 2).
  split; [|split; [reflexivity|]].
  - intros p Hp. assert (p = 1 \/ p = 2) as [-> | ->] by lia.
    + apply (answers_ok newer [tie1; tie2] [tie1; tie2] 1 1 [tie1; tie2]); [reflexivity| |vm_compute; discriminate].
      repeat constructor; vm_compute; discriminate.
    + apply (answers_ok newer [tie1; tie2] [tie1; tie2] 2 1 [tie2; tie1]); [apply perm_swap| |vm_compute; discriminate].
      repeat constructor; vm_compute; discriminate.
  - cbn. intros P. assert (In tie2 [tie1; tie1]) by (eapply Permutation_in; [symmetry; exact P|now right; left]).
    cbn in H. unfold tie1, tie2 in H. destruct H as [H|[H|[]]]; discriminate.
Qed.
(** A page number far beyond the end wraps around: page 2^62+1 of size 4 is page 1 again. *)
Theorem C33_wraparound_refuted : exists d p q,
  p <= 2 ^ 63 - 1 /\ total_pages (Z.of_nat (length (d_jobs d))) 4 < p /\
  get_jobs (fun _ _ => true) d "" "" [] p 4 (Some q) /\ pg_items q = [tie1].
Proof.
  exists (mkDb [] [] [] [tie1] []), (2 ^ 62 + 1), (mkPage [tie1] (2 ^ 62 + 1) 1 1 1).
  split; [vm_compute; discriminate|]. split; [reflexivity|]. split; [|reflexivity].
  apply (answers_ok newer [tie1] [tie1] (2 ^ 62 + 1) 4 [tie1]); [reflexivity|repeat constructor|vm_compute; discriminate].
Qed.

(* ------------------------------------------------------------------ *)
(** * Logs *)
(** schema.go:178-184; the job's log joins the task's position and creation time *)
Record lrow := mkLrow { lr_task : id; lr_number : Z; lr_created : time; lr_contents : string }.
Record trow := mkTrow { tr_id : id; tr_job : id; tr_position : Z; tr_created : time }.
Section Logs.
Variable text_matches : string -> string -> bool.
Definition term_ok (term : string) (r : lrow) : bool := String.eqb term "" || text_matches (lr_contents r) term.
(** postgres.go:963-995: the count query does not have the search condition *)
Definition later_part (x y : lrow) : Prop := lr_number y <= lr_number x.
Definition get_task_log (ls : list lrow) (t : id) (term : string) (p size : Z) (r : option (@page lrow)) : Prop :=
  let mine := filter (fun x => N.eqb (lr_task x) t) ls in
  answers later_part (filter (term_ok term) mine) mine p size r.
(** postgres.go:997-1035 *)
Definition joined (ls : list lrow) (ts : list trow) (j : id) : list (lrow * trow) :=
  flat_map (fun l => map (fun t => (l, t)) (filter (fun t => N.eqb (tr_id t) (lr_task l) && N.eqb (tr_job t) j) ts)) ls.
(** order by t.position desc, t.created_at desc, tlp.number_ desc, tlp.created_at desc *)
Fixpoint lex_desc (xs ys : list Z) : Prop :=
  match xs, ys with x :: xs, y :: ys => y < x \/ (x = y /\ lex_desc xs ys) | _, _ => True end.
Definition job_log_key (e : lrow * trow) : list Z := [tr_position (snd e); tr_created (snd e); lr_number (fst e); lr_created (fst e)].
Definition later_entry (x y : lrow * trow) : Prop := lex_desc (job_log_key x) (job_log_key y).
Definition get_job_log (ls : list lrow) (ts : list trow) (j : id) (term : string) (p size : Z) (r : option (@page (lrow * trow))) : Prop :=
  answers later_entry (filter (fun e => term_ok term (fst e)) (joined ls ts j)) (joined ls ts j) p size r.

Lemma filter_no_term ls : filter (term_ok "") ls = ls.
Proof. apply filter_all. reflexivity. Qed.
Lemma filter_no_term2 (ls : list (lrow * trow)) : filter (fun e => term_ok "" (fst e)) ls = ls.
Proof. apply filter_all. reflexivity. Qed.

(** Without a search term: the pages of a task's log partition it, last part first, when parts are numbered apart *)
Theorem C33_task_log_pages : forall ls t size get total,
  let rows := filter (fun x => N.eqb (lr_task x) t) ls in
  1 <= size -> NoDup (map lr_number rows) -> Z.of_nat (length rows) + size < 2 ^ 63 ->
  total = total_pages (Z.of_nat (length rows)) size ->
  (forall p, 1 <= p <= total -> get_task_log ls t "" p size (Some (get p))) ->
  partition later_part rows size get total.
Proof.
  intros ls t size get total rows Hs Hn Hb Ht Ha. eapply pages_partition; try eassumption.
  - intros x y Hx Hy A B. unfold later_part in *. clear - Hn Hx Hy A B. fold rows in Hn. revert Hn Hx Hy. induction rows as [|z l IH]; cbn; [tauto|].
    intros N Hx Hy. inversion N as [|? ? N1 N2]; subst. destruct Hx as [<-|Hx], Hy as [<-|Hy]; auto.
    + destruct N1. apply in_map_iff. exists y. split; [lia|assumption].
    + destruct N1. apply in_map_iff. exists x. split; [lia|assumption].
  - intros p Hp. specialize (Ha p Hp). unfold get_task_log in Ha. cbn zeta in Ha. now rewrite filter_no_term in Ha.
Qed.
(** The log of a job: the parts of the tasks of the job, each beside its task, and nothing else. *)
Theorem C33_job_log_content : forall ls ts j l t, In (l, t) (joined ls ts j) <-> In l ls /\ In t ts /\ lr_task l = tr_id t /\ tr_job t = j.
Proof.
  intros ls ts j l t. unfold joined. rewrite in_flat_map. split.
  - intros (x & Hx & H). apply in_map_iff in H as (y & E & H). injection E as -> ->. apply filter_In in H as [Hy H].
    apply andb_true_iff in H as [H1 H2]. apply N.eqb_eq in H1, H2. auto.
  - intros (Hl & Ht & E1 & E2). exists l. split; [assumption|]. apply in_map_iff. exists t. split; [reflexivity|]. apply filter_In. split; [assumption|].
    rewrite E1, E2, !N.eqb_refl. reflexivity.
Qed.
(** each part once, when task identifiers are distinct *)
Theorem C33_job_log_once : forall ls ts j, NoDup (map tr_id ts) ->
  map fst (joined ls ts j) = filter (fun l => existsb (fun t => N.eqb (tr_id t) (lr_task l) && N.eqb (tr_job t) j) ts) ls.
Proof.
  intros ls ts j N. unfold joined. induction ls as [|l ls IH]; [reflexivity|]. cbn [flat_map filter]. rewrite map_app, IH, map_map. cbn [fst].
  assert (K : map (fun _ : trow => l) (filter (fun t => N.eqb (tr_id t) (lr_task l) && N.eqb (tr_job t) j) ts) =
              if existsb (fun t => N.eqb (tr_id t) (lr_task l) && N.eqb (tr_job t) j) ts then [l] else []).
  { clear IH. induction ts as [|t ts IHt]; [reflexivity|]. cbn [map] in N. inversion N as [|? ? N1 N2]; subst. cbn [filter existsb].
    destruct (N.eqb (tr_id t) (lr_task l) && N.eqb (tr_job t) j) eqn:E; [|cbn [orb]; auto]. cbn [orb map]. f_equal.
    apply andb_true_iff in E as [E _]. apply N.eqb_eq in E.
    replace (filter (fun t0 : trow => N.eqb (tr_id t0) (lr_task l) && N.eqb (tr_job t0) j) ts) with (@nil trow); [reflexivity|].
    symmetry. apply filter_nil_iff. intros x Hx. apply andb_false_iff. left. apply N.eqb_neq. intros Ex. apply N1. rewrite E, <- Ex. now apply in_map. }
  rewrite K. destruct (existsb _ ts); reflexivity.
Qed.
(** The order: later position first, then the task created later, then the higher part number, then the part stored later. *)
Definition log_order (x y : lrow * trow) : Prop :=
  tr_position (snd y) < tr_position (snd x) \/ (tr_position (snd x) = tr_position (snd y) /\
   (tr_created (snd y) < tr_created (snd x) \/ (tr_created (snd x) = tr_created (snd y) /\
    (lr_number (fst y) < lr_number (fst x) \/ (lr_number (fst x) = lr_number (fst y) /\
     lr_created (fst y) <= lr_created (fst x)))))).
Lemma later_entry_order x y : later_entry x y <-> log_order x y.
Proof. unfold later_entry, log_order, job_log_key. cbn. lia. Qed.
Lemma StronglySorted_weaken {X} (P Q : X -> X -> Prop) l : (forall a b, P a b -> Q a b) -> StronglySorted P l -> StronglySorted Q l.
Proof. intros H. induction 1; constructor; auto. eapply Forall_impl; [|eassumption]. auto. Qed.
Theorem C33_job_log_pages : forall ls ts j size get total,
  let rows := joined ls ts j in
  1 <= size -> (forall x y, In x rows -> In y rows -> log_order x y -> log_order y x -> x = y) -> Z.of_nat (length rows) + size < 2 ^ 63 ->
  total = total_pages (Z.of_nat (length rows)) size ->
  (forall p, 1 <= p <= total -> get_job_log ls ts j "" p size (Some (get p))) ->
  partition log_order rows size get total.
Proof.
  intros ls ts j size get total rows Hs Hn Hb Ht Ha.
  assert (K : partition later_entry rows size get total).
  2:{ destruct K as (K1 & K2 & K3). split; [exact K1|]. split; [|exact K3]. eapply StronglySorted_weaken; [|exact K2]. intros a b. apply later_entry_order. }
  eapply pages_partition; try eassumption.
  - intros x y Hx Hy A B. apply Hn; try assumption; apply later_entry_order; assumption.
  - intros p Hp. specialize (Ha p Hp). unfold get_job_log in Ha. now rewrite filter_no_term2 in Ha.
Qed.
End Logs.
(** With a search term the number of pages and of items is that of the whole log: here one match on one page is
    announced as two pages of two items. *)
Theorem C33_search_count_refuted : exists tm ls q,
  get_task_log tm ls 1%N "x" 1 1 (Some q) /\ pg_total q = 2 /\ pg_count q = 2 /\
  length (filter (fun x => tm (lr_contents x) "x") ls) = 1%nat.
Proof.
  exists String.eqb, [mkLrow 1%N 1 1 "x"; mkLrow 1%N 2 2 "y"], (mkPage [mkLrow 1%N 1 1 "x"] 1 1 2 2).
  split; [|repeat split]. unfold get_task_log.
  apply (answers_ok later_part [mkLrow 1%N 1 1 "x"] [mkLrow 1%N 1 1 "x"; mkLrow 1%N 2 2 "y"] 1 1 [mkLrow 1%N 1 1 "x"]); [reflexivity|repeat constructor|vm_compute; discriminate].
Qed.

(** ** Cases meeting the hypotheses *)
Definition store_ops : list dbop :=
  [DUser 1%N "ann"; DUser 2%N "bob"; DRole 7%N "ops"; DAssign 2%N 7%N;
   DJob (mkJrow 10%N 1 "a" []) []; DJob (mkJrow 11%N 2 "b" []) [PUser "ann"]; DJob (mkJrow 12%N 3 "c" []) [PRole "ops"];
   DJob (mkJrow 13%N 4 "d" []) [PUser "nobody"]].
Example who_sees_what :
  let seen cu := map jr_id (selected (fun _ _ => true) (dbs store_ops nodb) cu "" []) in
  seen "" = [10; 11; 12]%N /\ seen "ann" = [10; 11]%N /\ seen "bob" = [10; 12]%N /\ seen "eve" = [10]%N.
Proof. repeat split; reflexivity. Qed.
Example pages_of_three : let d := mkDb [] [] [] [mkJrow 1%N 1 "" []; mkJrow 2%N 2 "" []; mkJrow 3%N 3 "" []] [] in
  forall tm, exists get, (forall p, 1 <= p <= 2 -> get_jobs tm d "" "" [] p 2 (Some (get p))) /\
    map jr_id (all_items get 1 2) = [3; 2; 1]%N.
Proof.
  intros d tm. set (s := [mkJrow 3%N 3 "" []; mkJrow 2%N 2 "" []; mkJrow 1%N 1 "" []]).
  exists (fun p => if p =? 1 then mkPage (firstn 2 s) 1 2 2 3 else mkPage (skipn 2 s) 2 1 2 3). split; [|reflexivity].
  intros p Hp. assert (S : StronglySorted newer s) by (repeat constructor; vm_compute; discriminate).
  assert (P : Permutation s (selected tm d "" "" [])).
  { change (Permutation s [mkJrow 1%N 1 "" []; mkJrow 2%N 2 "" []; mkJrow 3%N 3 "" []]). unfold s.
    symmetry. apply (Permutation_rev [_; _; _]). }
  assert (p = 1 \/ p = 2) as [-> | ->] by lia.
  - apply (answers_ok newer _ (selected tm d "" "" []) 1 2 s P S). vm_compute. discriminate.
  - apply (answers_ok newer _ (selected tm d "" "" []) 2 2 s P S). vm_compute. discriminate.
Qed.

Print Assumptions C32_visibility.
Print Assumptions C32_every_row.
Print Assumptions C33_job_pages.
Print Assumptions C33_beyond_the_end.
Print Assumptions C33_ties_refuted.
Print Assumptions C33_wraparound_refuted.
Print Assumptions C33_task_log_pages.
Print Assumptions C33_job_log_pages.
Print Assumptions C33_search_count_refuted.
Print Assumptions C33_job_log_content.
Print Assumptions C33_job_log_once.
