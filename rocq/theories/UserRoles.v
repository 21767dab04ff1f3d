(** C101: users, roles and who has which, in the tables (C63 is about the login).
    api/api.go:863-897 (POST /users), datastore/postgres/postgres.go:1157-1249, datastore/postgres/record.go:452-472,
    db/postgres/schema.go:20-50.
    Columns and rows as in Rows.v (a boolean is a JSON boolean here); a user's id as text is [idtext] of it; roles are listed in
    some order; the id and the time of an assignment are left out; how a password is hashed is left open (the outcome is given). *)
From Verif Require Import Types Handlers Validate StateProofs Wire Rows.
From Verif Require SchedRows.
Open Scope string_scope.
Open Scope list_scope.
Open Scope Z_scope.

Section UserRoles.
(** how an id is written, and strings.TrimSpace *)
Variable idtext : id -> string.
Hypothesis idtext_inj : forall a b, idtext a = idtext b -> a = b.
Variable trim : string -> string.

(* ------------------------------------------------------------------ *)
(** * Model *)
(** schema.go:20-27 *)
Definition user_schema : list column :=
  [mkCol "id" (KVarchar 32) true CNull; mkCol "name" (KVarchar 64) true CNull; mkCol "username_" (KVarchar 64) true CNull;
   mkCol "password_" (KVarchar 256) true CNull; mkCol "created_at" KTime true CNull; mkCol "is_disabled" KJson true (CJson (JBool false))].
(** schema.go:31-36 *)
Definition role_schema : list column :=
  [mkCol "id" (KVarchar 32) true CNull; mkCol "name" (KVarchar 64) true CNull; mkCol "slug" (KVarchar 64) true CNull;
   mkCol "created_at" KTime true CNull].
(** schema.go:20-50 *)
Record db := mkDb { users : list row; roles : list row; links : list (id * id) }.
Definition is_text (c : cell) (s : string) : bool := match c with CText x => String.eqb x s | _ => false end.
Definition is_idtext (c : cell) (s : string) : bool := match c with CId x => String.eqb (idtext x) s | _ => false end.
Definition q_bool (c : cell) : option bool := match c with CJson (JBool b) => Some b | _ => None end.
(** record.go:452-462 *)
Definition to_user (r : row) : option user :=
  let g := at_ r in
  let? v1 := q_id (g "id") in let? v2 := q_text (g "name") in let? v3 := q_text (g "username_") in let? v4 := q_text (g "password_") in
  let? v5 := q_time (g "created_at") in let? v6 := q_bool (g "is_disabled") in Some (mkUser v1 v2 v3 v4 "" (Some v5) v6).
(** record.go:464-472 *)
Definition to_role (r : row) : option role :=
  let g := at_ r in
  let? v1 := q_id (g "id") in let? v2 := q_text (g "slug") in let? v3 := q_text (g "name") in let? v4 := q_time (g "created_at") in
  Some (mkRole v1 v2 v3 (Some v4)).
(** postgres.go:1157-1166 *)
Definition get_user (D : db) (s : string) : option user :=
  let? r := find (fun r => is_text (at_ r "username_") s || is_idtext (at_ r "id") s) (users D) in to_user r.
(** postgres.go:1198-1204 *)
Definition get_role (D : db) (s : string) : option role :=
  let? r := find (fun r => is_idtext (at_ r "id") s || is_text (at_ r "slug") s) (roles D) in to_role r.
(** a unique column (schema.go:21,23,32,34,38) *)
Definition taken (T : list row) (col : string) (r : row) : bool :=
  existsb (fun r' => match at_ r' col, at_ r col with CId a, CId b => N.eqb a b | CText a, CText b => String.eqb a b | _, _ => false end) T.
(** postgres.go:1168-1181 *)
Definition create_user (D : db) (i : id) (n : time) (name username passhash : string) : option db :=
  let? r := insert user_schema ["id"; "name"; "username_"; "password_"; "created_at"] [CId i; CText name; CText username; CText passhash; CTime n] in
  if row_ok user_schema r && negb (taken (users D) "id" r) && negb (taken (users D) "username_" r)
  then Some (mkDb (users D ++ [r]) (roles D) (links D)) else None.
(** postgres.go:1183-1196 *)
Definition create_role (D : db) (i : id) (n : time) (slug name : string) : option db :=
  let? r := insert role_schema ["id"; "slug"; "name"; "created_at"] [CId i; CText slug; CText name; CTime n] in
  if row_ok role_schema r && negb (taken (roles D) "id" r) && negb (taken (roles D) "slug" r)
  then Some (mkDb (users D) (roles D ++ [r]) (links D)) else None.
Definition has_id (T : list row) (i : id) : bool := existsb (fun r => match at_ r "id" with CId x => N.eqb x i | _ => false end) T.
Definition same_link (u r : id) (l : id * id) : bool := N.eqb (fst l) u && N.eqb (snd l) r.
(** postgres.go:1230-1241; schema.go:42-50 *)
Definition assign_role (D : db) (u r : id) : option db :=
  if has_id (users D) u && has_id (roles D) r && negb (existsb (same_link u r) (links D))
  then Some (mkDb (users D) (roles D) (links D ++ [(u, r)])) else None.
(** postgres.go:1243-1249 *)
Definition unassign_role (D : db) (u r : id) : option db :=
  Some (mkDb (users D) (roles D) (filter (fun l => negb (same_link u r l)) (links D))).
Fixpoint all_of {A B} (f : A -> option B) (l : list A) : option (list B) :=
  match l with [] => Some [] | x :: l => let? y := f x in let? ys := all_of f l in Some (y :: ys) end.
(** postgres.go:1218-1228: a row for each pair that joins *)
Definition get_user_roles (D : db) (u : id) : option (list role) :=
  all_of to_role (flat_map (fun r => match at_ r "id" with CId x => map (fun _ => r) (filter (same_link u x) (links D)) | _ => [] end) (roles D)).
(** postgres.go:1206-1216 *)
Definition get_roles (D : db) : option (list role) := all_of to_role (roles D).
(** api.go:863-897: [h] is what the hash gave *)
Definition post_user (D : db) (i : id) (n : time) (h : option string) (u : user) : option db :=
  let name := trim (u_username u) in
  if String.eqb name "" then None else if String.eqb (trim (u_password u)) "" then None else
  let? ph := h in
  match get_user D name with Some _ => None | None => create_user D i n (u_name u) name ph end.

Inductive op :=
| PostUser (i : id) (n : time) (h : option string) (u : user)
| CreateRole (i : id) (n : time) (slug name : string)
| Assign (u r : id) | Unassign (u r : id).
Definition run (D : db) (o : op) : option db :=
  match o with
  | PostUser i n h u => post_user D i n h u
  | CreateRole i n slug name => create_role D i n slug name
  | Assign u r => assign_role D u r
  | Unassign u r => unassign_role D u r
  end.

(* ------------------------------------------------------------------ *)
(** * Specification *)
(** What happened, the latest first: the requests with their outcome. *)
Definition history := list (op * bool).
(** schema.go:29,40: the two rows that are there from the start *)
Variables (guest_id public_id : id) (start : time).
Definition guest : user := mkUser guest_id "Guest" "guest" "" "" (Some start) true.
Definition public : role := mkRole public_id "public" "Public" (Some start).
(** The users and roles there are. *)
Fixpoint made_users (h : history) : list user :=
  match h with
  | [] => [guest]
  | (PostUser i n (Some ph) u, true) :: h => made_users h ++ [mkUser i (u_name u) (trim (u_username u)) ph "" (Some n) false]
  | _ :: h => made_users h
  end.
Fixpoint made_roles (h : history) : list role :=
  match h with
  | [] => [public]
  | (CreateRole i n slug name, true) :: h => made_roles h ++ [mkRole i slug name (Some n)]
  | _ :: h => made_roles h
  end.
(** User [u] has role [r]: it was assigned and not taken away since. *)
Fixpoint holds (h : history) (u r : id) : Prop :=
  match h with
  | [] => False
  | (Assign u' r', true) :: h => (u' = u /\ r' = r) \/ holds h u r
  | (Unassign u' r', _) :: h => ~ (u' = u /\ r' = r) /\ holds h u r
  | _ :: h => holds h u r
  end.
(** A random id was not used before, and nobody guessed it for a name; no role is given the id of a role for a slug (nothing checks
    that: C101_slug_refuted). *)
Definition fresh (h : history) (o : op) : Prop :=
  match o with
  | PostUser i _ _ u => ~ In i (map u_id (made_users h)) /\ trim (u_username u) <> idtext i /\
                        forall v, In v (made_users h) -> u_username v <> idtext i
  | CreateRole i _ slug _ => ~ In i (map ro_id (made_roles h)) /\ slug <> idtext i /\ forall v, In v (made_roles h) -> ro_slug v <> idtext i /\ slug <> idtext (ro_id v)
  | _ => True
  end.
Definition guest_row : row := [("id", CId guest_id); ("name", CText "Guest"); ("username_", CText "guest"); ("password_", CText ""); ("created_at", CTime start); ("is_disabled", CJson (JBool true))].
Definition public_row : row := [("id", CId public_id); ("name", CText "Public"); ("slug", CText "public"); ("created_at", CTime start)].
Definition at_start : db := mkDb [guest_row] [public_row] [].
Inductive reached : db -> history -> Prop :=
| r_start : idtext guest_id <> "guest" -> idtext public_id <> "public" -> reached at_start []
| r_done D h o D' : reached D h -> fresh h o -> run D o = Some D' -> reached D' ((o, true) :: h)
| r_refused D h o : reached D h -> fresh h o -> run D o = None -> reached D ((o, false) :: h).

(* ------------------------------------------------------------------ *)
(** * Proofs *)
Definition user_row (u : user) : row :=
  [("id", CId (u_id u)); ("name", CText (u_name u)); ("username_", CText (u_username u)); ("password_", CText (u_passhash u));
   ("created_at", match u_created u with Some t => CTime t | None => CNull end); ("is_disabled", CJson (JBool (u_disabled u)))].
Definition role_row (r : role) : row :=
  [("id", CId (ro_id r)); ("name", CText (ro_name r)); ("slug", CText (ro_slug r)); ("created_at", match ro_created r with Some t => CTime t | None => CNull end)].
Definition proper_user (u : user) : Prop := u_password u = "" /\ exists t, u_created u = Some t.
Definition proper_role (r : role) : Prop := exists t, ro_created r = Some t.
Lemma back_user u : proper_user u -> to_user (user_row u) = Some u.
Proof. intros [P [t T]]. destruct u; cbn in *. subst. reflexivity. Qed.
Lemma back_role r : proper_role r -> to_role (role_row r) = Some r.
Proof. intros [t T]. destruct r; cbn in *. subst. reflexivity. Qed.
Record inv (D : db) (us : list user) (rs : list role) (H : id -> id -> Prop) : Prop := mkInv {
  v_users : users D = map user_row us; v_roles : roles D = map role_row rs;
  v_pu : Forall proper_user us; v_pr : Forall proper_role rs;
  v_uid : NoDup (map u_id us); v_uname : NoDup (map u_username us);
  v_rid : NoDup (map ro_id rs); v_slug : NoDup (map ro_slug rs);
  v_named : forall u v, In u us -> In v us -> u_username u <> idtext (u_id v);
  v_slugged : forall u v, In u rs -> In v rs -> ro_slug u <> idtext (ro_id v);
  v_links : forall u r, In (u, r) (links D) <-> H u r; v_once : NoDup (links D) }.

Lemma find_map_row {A} (f : A -> row) p l : find p (map f l) = option_map f (find (fun x => p (f x)) l).
Proof. induction l as [|x l IH]; cbn; [reflexivity|]. destruct (p (f x)); auto. Qed.
Lemma find_one {A} (p : A -> bool) (l : list A) x : In x l -> p x = true -> (forall y, In y l -> p y = true -> y = x) -> find p l = Some x.
Proof.
  intros Hin Hp U. destruct (find p l) as [y|] eqn:E.
  - apply find_some in E as [E1 E2]. now rewrite (U y E1 E2).
  - pose proof (find_none _ _ E x Hin). congruence.
Qed.
Lemma nodup_key {A B} (f : A -> B) l x y : NoDup (map f l) -> In x l -> In y l -> f x = f y -> x = y.
Proof.
  induction l as [|a l IH]; cbn; intros ND Hx Hy E; [destruct Hx|]. inversion ND as [|? ? N ND']; subst.
  destruct Hx as [->|Hx], Hy as [->|Hy].
  - reflexivity.
  - destruct N. rewrite E. now apply in_map.
  - destruct N. rewrite <- E. now apply in_map.
  - auto.
Qed.
Lemma user_found D us rs H s u : inv D us rs H -> (get_user D s = Some u <-> In u us /\ (u_username u = s \/ idtext (u_id u) = s)).
Proof.
  intros [EU _ PU _ UI UN _ _ NC _ _ _]. unfold get_user. rewrite EU, find_map_row.
  set (p := fun x : user => String.eqb (u_username x) s || String.eqb (idtext (u_id x)) s).
  change (find _ us) with (find p us). assert (Hp : forall x, p x = true <-> u_username x = s \/ idtext (u_id x) = s).
  { intro x. unfold p. rewrite orb_true_iff, !String.eqb_eq. reflexivity. }
  rewrite Forall_forall in PU. split.
  - destruct (find p us) as [v|] eqn:E; [|discriminate]. cbn [option_map]. apply find_some in E as [E1 E2]. rewrite (back_user v (PU v E1)).
    intro K. injection K as <-. split; [exact E1|now apply Hp].
  - intros [Hin Hs]. rewrite (find_one p us u Hin); [cbn [option_map]; apply back_user; auto|now apply Hp|].
    intros y Hy K. apply Hp in K. destruct Hs as [Hs|Hs], K as [K|K]; subst s.
    + apply (nodup_key u_username us); auto.
    + destruct (NC u y Hin Hy); congruence.
    + destruct (NC y u Hy Hin); congruence.
    + apply idtext_inj in K. apply (nodup_key u_id us); auto.
Qed.
Lemma role_found D us rs H s u : inv D us rs H -> (get_role D s = Some u <-> In u rs /\ (ro_slug u = s \/ idtext (ro_id u) = s)).
Proof.
  intros [_ EU _ PU _ _ UI UN _ NC _ _]. unfold get_role. rewrite EU, find_map_row.
  set (p := fun x : role => String.eqb (idtext (ro_id x)) s || String.eqb (ro_slug x) s).
  change (find _ rs) with (find p rs). assert (Hp : forall x, p x = true <-> ro_slug x = s \/ idtext (ro_id x) = s).
  { intro x. unfold p. rewrite orb_true_iff, !String.eqb_eq. tauto. }
  rewrite Forall_forall in PU. split.
  - destruct (find p rs) as [v|] eqn:E; [|discriminate]. cbn [option_map]. apply find_some in E as [E1 E2]. rewrite (back_role v (PU v E1)).
    intro K. injection K as <-. split; [exact E1|now apply Hp].
  - intros [Hin Hs]. rewrite (find_one p rs u Hin); [cbn [option_map]; apply back_role; auto|now apply Hp|].
    intros y Hy K. apply Hp in K. destruct Hs as [Hs|Hs], K as [K|K]; subst s.
    + apply (nodup_key ro_slug rs); auto.
    + destruct (NC u y Hin Hy); congruence.
    + destruct (NC y u Hy Hin); congruence.
    + apply idtext_inj in K. apply (nodup_key ro_id rs); auto.
Qed.
Lemma taken_id us i r : at_ r "id" = CId i -> taken (map user_row us) "id" r = existsb (N.eqb i) (map u_id us).
Proof. intro E. unfold taken. rewrite E. induction us as [|u us IH]; cbn; [reflexivity|]. rewrite IH, N.eqb_sym. reflexivity. Qed.
Lemma taken_name us s r : at_ r "username_" = CText s -> taken (map user_row us) "username_" r = existsb (String.eqb s) (map u_username us).
Proof. intro E. unfold taken. rewrite E. induction us as [|u us IH]; cbn; [reflexivity|]. rewrite IH, String.eqb_sym. reflexivity. Qed.
Lemma taken_rid rs i r : at_ r "id" = CId i -> taken (map role_row rs) "id" r = existsb (N.eqb i) (map ro_id rs).
Proof. intro E. unfold taken. rewrite E. induction rs as [|u us IH]; cbn; [reflexivity|]. rewrite IH, N.eqb_sym. reflexivity. Qed.
Lemma taken_slug rs s r : at_ r "slug" = CText s -> taken (map role_row rs) "slug" r = existsb (String.eqb s) (map ro_slug rs).
Proof. intro E. unfold taken. rewrite E. induction rs as [|u us IH]; cbn; [reflexivity|]. rewrite IH, String.eqb_sym. reflexivity. Qed.
Lemma not_in_n i l : existsb (N.eqb i) l = false <-> ~ In i l.
Proof.
  rewrite <- not_true_iff_false, existsb_exists. split; intros H K; apply H; [exists i; split; [exact K|apply N.eqb_refl]|].
  destruct K as (x & Hx & E). apply N.eqb_eq in E. now subst.
Qed.
Lemma not_in_s s l : existsb (String.eqb s) l = false <-> ~ In s l.
Proof.
  rewrite <- not_true_iff_false, existsb_exists. split; intros H K; apply H; [exists s; split; [exact K|apply String.eqb_refl]|].
  destruct K as (x & Hx & E). apply String.eqb_eq in E. now subst.
Qed.
Lemma nodup_snoc {A} (l : list A) x : NoDup l -> ~ In x l -> NoDup (l ++ [x]).
Proof.
  intros ND N. induction ND as [|a l Ha ND IH]; cbn; [constructor; [intros []|constructor]|]. constructor.
  - rewrite in_app_iff. intros [K|[->|[]]]; [now apply Ha|apply N; now left].
  - apply IH. intro K. apply N. now right.
Qed.
Definition new_user (i : id) (n : time) (u : user) (ph : string) : user := mkUser i (u_name u) (trim (u_username u)) ph "" (Some n) false.
Lemma add_user D us rs H i n name username ph : inv D us rs H -> ~ In i (map u_id us) -> username <> idtext i ->
  (forall v, In v us -> u_username v <> idtext i) -> (forall v, In v us -> username <> idtext (u_id v)) ->
  ((exists D', create_user D i n name username ph = Some D') <-> ~ In username (map u_username us) /\ short 64 name /\ short 64 username /\ short 256 ph) /\
  (forall D', create_user D i n name username ph = Some D' -> inv D' (us ++ [mkUser i name username ph "" (Some n) false]) rs H).
Proof.
  intros [EU ER PU PR UI UN RI RS NC NR LK LO] Fi Fn Fo Fu. unfold create_user. cbn [insert user_schema].
  set (x := mkUser i name username ph "" (Some n) false).
  match goal with |- context [insert ?a ?b ?c] => replace (insert a b c) with (Some (user_row x)) by reflexivity end.
  rewrite EU, (taken_id us i) by reflexivity. rewrite (taken_name us username) by reflexivity.
  assert (Hok : row_ok user_schema (user_row x) = true <-> short 64 name /\ short 64 username /\ short 256 ph).
  { unfold row_ok, user_schema, user_row, short. cbn -[Nat.leb nul_free String.length]. rewrite !andb_true_r, !andb_true_iff, !Nat.leb_le. tauto. }
  assert (Fi' : existsb (N.eqb i) (map u_id us) = false) by now apply not_in_n. rewrite Fi'. cbn [negb]. rewrite andb_true_r.
  assert (Hu : existsb (String.eqb username) (map u_username us) = false <-> ~ In username (map u_username us)) by apply not_in_s.
  destruct (row_ok user_schema (user_row x)) eqn:Eo, (existsb (String.eqb username) (map u_username us)) eqn:Ee; cbn [andb negb].
  - split; [split; [intros [D' K]; discriminate K|]|intros D' K; discriminate K]. intros (K & _). apply Hu in K. discriminate K.
  - split; [split; [intros _; split; [now apply Hu|now apply Hok]|eexists; reflexivity]|]. intros D' K. injection K as <-.
    constructor; cbn [users roles links]; auto.
    + now rewrite map_app.
    + apply Forall_app. split; [exact PU|]. constructor; [|constructor]. split; [reflexivity|now exists n].
    + rewrite map_app. apply nodup_snoc; auto.
    + rewrite map_app. apply nodup_snoc; [auto|now apply Hu].
    + intros u v Ku Kv. apply in_app_iff in Ku, Kv. destruct Ku as [Ku|[<-|[]]], Kv as [Kv|[<-|[]]]; auto.
  - split; [split; [intros [D' K]; discriminate K|]|intros D' K; discriminate K]. intros (_ & K). apply Hok in K. discriminate K.
  - split; [split; [intros [D' K]; discriminate K|]|intros D' K; discriminate K]. intros (_ & K). apply Hok in K. discriminate K.
Qed.
Lemma add_role D us rs H i n slug name : inv D us rs H -> ~ In i (map ro_id rs) -> slug <> idtext i ->
  (forall v, In v rs -> ro_slug v <> idtext i) -> (forall v, In v rs -> slug <> idtext (ro_id v)) ->
  ((exists D', create_role D i n slug name = Some D') <-> ~ In slug (map ro_slug rs) /\ short 64 name /\ short 64 slug) /\
  (forall D', create_role D i n slug name = Some D' -> inv D' us (rs ++ [mkRole i slug name (Some n)]) H).
Proof.
  intros [EU ER PU PR UI UN RI RS NC NR LK LO] Fi Fn Fo Fu. unfold create_role.
  set (x := mkRole i slug name (Some n)).
  match goal with |- context [insert ?a ?b ?c] => replace (insert a b c) with (Some (role_row x)) by reflexivity end.
  rewrite ER, (taken_rid rs i) by reflexivity. rewrite (taken_slug rs slug) by reflexivity.
  assert (Hok : row_ok role_schema (role_row x) = true <-> short 64 name /\ short 64 slug).
  { unfold row_ok, role_schema, role_row, short. cbn -[Nat.leb nul_free String.length]. rewrite !andb_true_r, !andb_true_iff, !Nat.leb_le. tauto. }
  assert (Fi' : existsb (N.eqb i) (map ro_id rs) = false) by now apply not_in_n. rewrite Fi'. cbn [negb]. rewrite andb_true_r.
  assert (Hu : existsb (String.eqb slug) (map ro_slug rs) = false <-> ~ In slug (map ro_slug rs)) by apply not_in_s.
  destruct (row_ok role_schema (role_row x)) eqn:Eo, (existsb (String.eqb slug) (map ro_slug rs)) eqn:Ee; cbn [andb negb].
  - split; [split; [intros [D' K]; discriminate K|]|intros D' K; discriminate K]. intros (K & _). apply Hu in K. discriminate K.
  - split; [split; [intros _; split; [now apply Hu|now apply Hok]|eexists; reflexivity]|]. intros D' K. injection K as <-.
    constructor; cbn [users roles links]; auto.
    + now rewrite map_app.
    + apply Forall_app. split; [exact PR|]. constructor; [|constructor]. now exists n.
    + rewrite map_app. apply nodup_snoc; auto.
    + rewrite map_app. apply nodup_snoc; [auto|now apply Hu].
    + intros u v Ku Kv. apply in_app_iff in Ku, Kv. destruct Ku as [Ku|[<-|[]]], Kv as [Kv|[<-|[]]]; auto.
  - split; [split; [intros [D' K]; discriminate K|]|intros D' K; discriminate K]. intros (_ & K). apply Hok in K. discriminate K.
  - split; [split; [intros [D' K]; discriminate K|]|intros D' K; discriminate K]. intros (_ & K). apply Hok in K. discriminate K.
Qed.
Lemma has_user us i : has_id (map user_row us) i = true <-> In i (map u_id us).
Proof.
  unfold has_id. rewrite existsb_exists, in_map_iff. split.
  - intros (r & Hr & E). apply in_map_iff in Hr as (u & <- & Hu). cbn in E. apply N.eqb_eq in E. now exists u.
  - intros (u & <- & Hu). exists (user_row u). split; [now apply in_map|]. cbn. apply N.eqb_refl.
Qed.
Lemma has_role rs i : has_id (map role_row rs) i = true <-> In i (map ro_id rs).
Proof.
  unfold has_id. rewrite existsb_exists, in_map_iff. split.
  - intros (r & Hr & E). apply in_map_iff in Hr as (u & <- & Hu). cbn in E. apply N.eqb_eq in E. now exists u.
  - intros (u & <- & Hu). exists (role_row u). split; [now apply in_map|]. cbn. apply N.eqb_refl.
Qed.
Lemma same_link_iff u r l : same_link u r l = true <-> l = (u, r).
Proof. destruct l as [a b]. unfold same_link. cbn. rewrite andb_true_iff, !N.eqb_eq. split; [intros [-> ->]; reflexivity|intro E; injection E; auto]. Qed.
Lemma linked u r ls : existsb (same_link u r) ls = true <-> In (u, r) ls.
Proof. rewrite existsb_exists. split; [intros (l & Hl & E); apply same_link_iff in E; now subst|intro H; exists (u, r); split; [exact H|now apply same_link_iff]]. Qed.
Lemma assigned D us rs H u r : inv D us rs H ->
  ((exists D', assign_role D u r = Some D') <-> In u (map u_id us) /\ In r (map ro_id rs) /\ ~ H u r) /\
  (forall D', assign_role D u r = Some D' -> inv D' us rs (fun a b => (u = a /\ r = b) \/ H a b)).
Proof.
  intros [EU ER PU PR UI UN RI RS NC NR LK LO]. unfold assign_role. rewrite EU, ER.
  pose proof (has_user us u) as H1. pose proof (has_role rs r) as H2. pose proof (linked u r (links D)) as H3. rewrite LK in H3.
  destruct (has_id (map user_row us) u), (has_id (map role_row rs) r), (existsb (same_link u r) (links D)); cbn [andb negb].
  2: { split.
    - split; [intros _; split; [now apply H1|split; [now apply H2|intro K; apply H3 in K; discriminate K]]|eexists; reflexivity].
    - intros D' K. injection K as <-. constructor; cbn [users roles links]; auto.
      + intros a b. rewrite in_app_iff, LK. cbn [In]. split; [intros [K|[K|[]]]; [now right|left; injection K; auto]|intros [[-> ->]|K]; auto].
      + apply nodup_snoc; [exact LO|]. rewrite LK. intro K. apply H3 in K. discriminate K. }
  all: (split; [split; [intros [D' K]; discriminate K|]|intros D' K; discriminate K]); intros (K1 & K2 & K3); exfalso.
  - apply K3, H3; reflexivity.
  - apply H2 in K2; discriminate K2.
  - apply H2 in K2; discriminate K2.
  - apply H1 in K1; discriminate K1.
  - apply H1 in K1; discriminate K1.
  - apply H1 in K1; discriminate K1.
  - apply H1 in K1; discriminate K1.
Qed.
Lemma unassigned D us rs H u r D' : inv D us rs H -> unassign_role D u r = Some D' -> inv D' us rs (fun a b => ~ (u = a /\ r = b) /\ H a b).
Proof.
  intros [EU ER PU PR UI UN RI RS NC NR LK LO] E. injection E as <-. constructor; cbn [users roles links]; auto.
  - intros a b. rewrite filter_In, LK, negb_true_iff, <- not_true_iff_false, same_link_iff. split.
    + intros [K1 K2]. split; [intros [-> ->]; now apply K2|exact K1].
    + intros [K1 K2]. split; [exact K2|]. intro K. apply K1. injection K; auto.
  - now apply NoDup_filter.
Qed.
Lemma inv_ext D us rs H H' : (forall u r, H u r <-> H' u r) -> inv D us rs H -> inv D us rs H'.
Proof. intros E []. constructor; auto. intros u r. rewrite <- E. auto. Qed.
Lemma fresh_new D us rs H s : inv D us rs H -> get_user D s = None -> ~ In s (map u_username us) /\ forall v, In v us -> s <> idtext (u_id v).
Proof.
  intros I N. split.
  - intro K. apply in_map_iff in K as (v & E & Hv). assert (get_user D s = Some v) by (apply (user_found D us rs H); auto). congruence.
  - intros v Hv E. assert (get_user D s = Some v) by (apply (user_found D us rs H); auto). congruence.
Qed.

Lemma reached_inv D h : reached D h -> inv D (made_users h) (made_roles h) (holds h).
Proof.
  induction 1 as [G P|D h o D' R IH F E|D h o R IH F E].
  - constructor; cbn; auto.
    + constructor; [|constructor]. split; [reflexivity|now exists start].
    + constructor; [|constructor]. now exists start.
    + constructor; [intros []|constructor].
    + constructor; [intros []|constructor].
    + constructor; [intros []|constructor].
    + constructor; [intros []|constructor].
    + intros u v [<-|[]] [<-|[]] K. cbn in K. congruence.
    + intros u v [<-|[]] [<-|[]] K. cbn in K. congruence.
    + tauto.
    + constructor.
  - destruct o as [i n ph u|i n slug name|u r|u r]; cbn [run fresh] in E, F.
    + unfold post_user in E. destruct (String.eqb (trim (u_username u)) ""); [discriminate|]. destruct (String.eqb (trim (u_password u)) ""); [discriminate|].
      destruct ph as [ph|]; [|discriminate]. destruct (get_user D (trim (u_username u))) eqn:G; [discriminate|].
      destruct (fresh_new _ _ _ _ _ IH G) as [N1 N2]. destruct F as (F1 & F2 & F3).
      cbn [made_users made_roles holds]. exact (proj2 (add_user D _ _ _ i n (u_name u) _ ph IH F1 F2 F3 N2) D' E).
    + destruct F as (F1 & F2 & F3). cbn [made_users made_roles holds].
      exact (proj2 (add_role D _ _ _ i n slug name IH F1 F2 (fun v Hv => proj1 (F3 v Hv)) (fun v Hv => proj2 (F3 v Hv))) D' E).
    + exact (proj2 (assigned D _ _ _ u r IH) D' E).
    + exact (unassigned D _ _ _ u r D' IH E).
  - destruct o as [i n [ph|] u|i n slug name|u r|u r]; try exact IH.
    cbn [run] in E. discriminate E.
Qed.
Lemma all_of_back rs : Forall proper_role rs -> all_of to_role (map role_row rs) = Some rs.
Proof. induction 1 as [|r rs P _ IH]; cbn [map all_of]; [reflexivity|]. now rewrite (back_role r P), IH. Qed.
Lemma filter_link u x ls : NoDup ls -> filter (same_link u x) ls = if existsb (same_link u x) ls then [(u, x)] else [].
Proof.
  induction 1 as [|l ls N ND IH]; cbn [filter existsb]; [reflexivity|]. destruct (same_link u x l) eqn:E; cbn [orb]; [|exact IH].
  apply same_link_iff in E. subst l. rewrite IH. destruct (existsb (same_link u x) ls) eqn:E; [|reflexivity]. apply linked in E. contradiction.
Qed.
Lemma joined_rows D us rs H u : inv D us rs H ->
  get_user_roles D u = Some (filter (fun r => existsb (same_link u (ro_id r)) (links D)) rs).
Proof.
  intros [EU ER PU PR UI UN RI RS NC NR LK LO]. unfold get_user_roles. rewrite ER.
  rewrite <- (all_of_back (filter _ rs)).
  - f_equal. clear - LO. induction rs as [|r rs IH]; cbn [map flat_map filter]; [reflexivity|]. rewrite IH.
    change (at_ (role_row r) "id") with (CId (ro_id r)). cbv iota. rewrite (filter_link u (ro_id r) (links D) LO).
    destruct (existsb _ _); reflexivity.
  - rewrite Forall_forall in *. intros r K. apply filter_In in K as [K _]. auto.
Qed.

(* ------------------------------------------------------------------ *)
(** * C101 *)
(** Whoever was created is found by name and by id, with what was given, and nobody else is. *)
Theorem C101_users_found : forall D h, reached D h -> forall s u,
  get_user D s = Some u <-> In u (made_users h) /\ (u_username u = s \/ idtext (u_id u) = s).
Proof. intros D h R s u. exact (user_found D _ _ _ s u (reached_inv D h R)). Qed.
Theorem C101_roles_found : forall D h, reached D h -> get_roles D = Some (made_roles h) /\ forall s r,
  get_role D s = Some r <-> In r (made_roles h) /\ (ro_slug r = s \/ idtext (ro_id r) = s).
Proof.
  intros D h R. pose proof (reached_inv D h R) as I. split; [|intros s r; exact (role_found D _ _ _ s r I)].
  unfold get_roles. rewrite (v_roles _ _ _ _ I). apply all_of_back. exact (v_pr _ _ _ _ I).
Qed.
(** A user has exactly the roles assigned and not taken away since, each once. *)
Theorem C101_roles_of : forall D h, reached D h -> forall u, exists l, get_user_roles D u = Some l /\ NoDup l /\
  forall r, In r l <-> In r (made_roles h) /\ holds h u (ro_id r).
Proof.
  intros D h R u. pose proof (reached_inv D h R) as I. eexists. split; [exact (joined_rows D _ _ _ u I)|]. destruct I as [EU ER PU PR UI UN RI RS NC NR LK LO]. split.
  - apply NoDup_filter. exact (NoDup_map_inv _ _ RI).
  - intro r. rewrite filter_In, linked, LK. reflexivity.
Qed.
(** A new user is accepted exactly when name and password are given, the password can be hashed, nobody has that name (or that id) and
    the columns can hold the rest. *)
Theorem C101_user_accepted : forall D h, reached D h -> forall i n ph u, fresh h (PostUser i n ph u) ->
  let name := trim (u_username u) in
  ((exists D', run D (PostUser i n ph u) = Some D') <->
   name <> "" /\ trim (u_password u) <> "" /\ short 64 name /\ short 64 (u_name u) /\ (exists p, ph = Some p /\ short 256 p) /\
   forall v, In v (made_users h) -> u_username v <> name /\ idtext (u_id v) <> name).
Proof.
  intros D h R i n ph u F name. pose proof (reached_inv D h R) as I. destruct F as (F1 & F2 & F3). cbn [run]. unfold post_user. fold name.
  destruct (String.eqb_spec name "") as [E|E]; [split; [intros [D' K]; discriminate K|intros (K & _); now destruct K]|].
  destruct (String.eqb_spec (trim (u_password u)) "") as [E2|E2]; [split; [intros [D' K]; discriminate K|intros (_ & K & _); now destruct K]|].
  destruct ph as [p|]; [|split; [intros [D' K]; discriminate K|intros (_ & _ & _ & _ & (p & K & _) & _); discriminate K]].
  destruct (get_user D name) as [v|] eqn:G.
  - split; [intros [D' K]; discriminate K|]. intros (_ & _ & _ & _ & _ & K). apply (user_found D _ _ _ _ _ I) in G as [Hv G]. destruct (K v Hv). destruct G; contradiction.
  - destruct (fresh_new _ _ _ _ _ I G) as [N1 N2]. destruct (add_user D _ _ _ i n (u_name u) name p I F1 F2 F3 N2) as [A _]. rewrite A. split.
    + intros (_ & K1 & K2 & K3). repeat (split; [assumption|]). split; [exists p; split; [reflexivity|exact K3]|]. intros v Hv. split; [|intro K; exact (N2 v Hv (eq_sym K))].
      intro K. apply N1. rewrite <- K. now apply in_map.
    + intros (_ & _ & K2 & K1 & (p' & K & K3) & _). injection K as <-. repeat (split; [assumption|]). assumption.
Qed.
(** A role is assigned exactly when user and role are there and the user does not have it. *)
Theorem C101_assign_accepted : forall D h, reached D h -> forall u r,
  (exists D', run D (Assign u r) = Some D') <-> In u (map u_id (made_users h)) /\ In r (map ro_id (made_roles h)) /\ ~ holds h u r.
Proof. intros D h R u r. exact (proj1 (assigned D _ _ _ u r (reached_inv D h R))). Qed.
Theorem C101_role_accepted : forall D h, reached D h -> forall i n slug name, fresh h (CreateRole i n slug name) ->
  (exists D', run D (CreateRole i n slug name) = Some D') <-> ~ In slug (map ro_slug (made_roles h)) /\ short 64 name /\ short 64 slug.
Proof.
  intros D h R i n slug name (F1 & F2 & F3).
  exact (proj1 (add_role D _ _ _ i n slug name (reached_inv D h R) F1 F2 (fun v Hv => proj1 (F3 v Hv)) (fun v Hv => proj2 (F3 v Hv)))).
Qed.
End UserRoles.

(** Non-vacuity: ids written in unary; a user, a role, an assignment made twice, one taken away that was not there, one taken away. *)
Fixpoint strokes (n : nat) : string := match n with O => "" | S n => ("x" ++ strokes n)%string end.
Definition unary (i : id) : string := strokes (N.to_nat i).
Lemma unary_inj a b : unary a = unary b -> a = b.
Proof.
  intro E. apply N2Nat.inj. assert (K : forall n m, strokes n = strokes m -> n = m).
  { induction n as [|n IH]; destruct m as [|m]; cbn; intro K; try discriminate K; [reflexivity|]. injection K as K. f_equal. auto. }
  exact (K _ _ E).
Qed.
Definition ex_ann : user := mkUser 0%N "Ann" "ann" "" "pw" None true.
Definition ex_ops : list (op * bool) :=
  [(Unassign 3%N 2%N, true); (Assign 3%N 5%N, false); (Assign 3%N 5%N, true); (CreateRole 5%N 20 "ops" "Ops", true);
   (PostUser 4%N 11 (Some "$h2") ex_ann, false); (PostUser 3%N 10 (Some "$h") ex_ann, true)].
Notation ex_reached := (reached unary (fun s => s) 1%N 2%N 5).
Example C101_example : exists D D', ex_reached D ex_ops /\ ex_reached D' ((Unassign 3%N 5%N, true) :: ex_ops) /\
  get_user_roles D 3%N = Some [mkRole 5%N "ops" "Ops" (Some 20)] /\ get_user_roles D' 3%N = Some [] /\
  get_user unary D "ann" = Some (mkUser 3%N "Ann" "ann" "$h" "" (Some 10) false) /\ get_user unary D "xxx" = get_user unary D "ann" /\
  get_role unary D "ops" = Some (mkRole 5%N "ops" "Ops" (Some 20)).
Proof.
  assert (R : exists D, ex_reached D ex_ops /\ D = mkDb [guest_row 1%N 5; user_row (mkUser 3%N "Ann" "ann" "$h" "" (Some 10) false)]
     [public_row 2%N 5; role_row (mkRole 5%N "ops" "Ops" (Some 20))] [(3%N, 5%N)]).
  { eexists. split.
    - unfold ex_ops. eapply r_done; [eapply r_refused; [eapply r_done; [eapply r_done; [eapply r_refused; [eapply r_done; [apply r_start; vm_compute; intro K; discriminate K| |]| |]| |]| |]| |]| |].
      all: try (vm_compute; reflexivity). all: try exact I.
      + cbn. split; [intros [K|[]]; discriminate K|]. split; [intro K; vm_compute in K; discriminate K|]. intros v [<-|[]] K; vm_compute in K; discriminate K.
      + cbn. split; [intros [K|[K|[]]]; discriminate K|]. split; [intro K; vm_compute in K; discriminate K|]. intros v [<-|[<-|[]]] K; vm_compute in K; discriminate K.
      + cbn. split; [intros [K|[]]; discriminate K|]. split; [intro K; vm_compute in K; discriminate K|]. intros v [<-|[]]. split; intro K; vm_compute in K; discriminate K.
    - reflexivity. }
  destruct R as (D & R & ->). eexists. eexists. split; [exact R|]. split; [eapply r_done; [exact R|exact I|vm_compute; reflexivity]|].
  split; [vm_compute; reflexivity|]. split; [vm_compute; reflexivity|]. split; [vm_compute; reflexivity|]. split; vm_compute; reflexivity.
Qed.

(** A role may be given the id of another role for a slug (the premise of [fresh] about slugs is not checked); then it is not found by
    its slug. *)
Theorem C101_slug_refuted : exists D h i n slug name D', ex_reached D h /\ ~ In i (map ro_id (made_roles 2%N 5 h)) /\
  run unary (fun s => s) D (CreateRole i n slug name) = Some D' /\ (forall r, get_role unary D' slug = Some r -> ro_slug r <> slug).
Proof.
  exists (at_start 1%N 2%N 5), [], 3%N, 7, "xx", "Two". eexists. split; [apply r_start; vm_compute; intro K; discriminate K|].
  split; [intros [K|[]]; discriminate K|]. split; [vm_compute; reflexivity|]. intros r H. vm_compute in H. injection H as <-. cbn. discriminate.
Qed.
(** Validation accepts a permission that names a role by its id (input/validate.go:101-105, GetRole), and storing it fails
    (postgres.go:672-690 looks for the slug only): the request ends in a database error. *)
Theorem C101_permission_by_id_refuted : ~ (forall D h, ex_reached D h -> forall s r, get_role unary D s = Some r -> forall i,
  SchedRows.perm_row (made_users (fun s => s) 1%N 5 h) (made_roles 2%N 5 h) i (Validate.to_perm (mkIPerm "" s)) <> None).
Proof.
  intro H. refine (H (at_start 1%N 2%N 5) [] _ "xx" (public 2%N 5) _ 9%N _).
  - apply r_start; vm_compute; intro K; discriminate K.
  - vm_compute. reflexivity.
  - vm_compute. reflexivity.
Qed.
(** What would hold: named by slug or user name, a permission that validation accepts can be stored. *)
Theorem C101_permission_by_name : forall idtext, (forall a b, idtext a = idtext b -> a = b) -> forall trim g p t D h, reached idtext trim g p t D h ->
  forall i q, (ip_role q <> "" -> exists r, get_role idtext D (ip_role q) = Some r /\ ro_slug r = ip_role q) ->
  (ip_role q = "" -> exists u, get_user idtext D (ip_user q) = Some u /\ u_username u = ip_user q) ->
  SchedRows.perm_row (made_users trim g t h) (made_roles p t h) i (Validate.to_perm q) <> None.
Proof.
  intros idtext inj trim g p t D h R i q HR HU. pose proof (reached_inv idtext inj trim g p t D h R) as I. unfold Validate.to_perm.
  destruct (String.eqb_spec (ip_role q) "") as [E|E].
  - destruct (HU E) as (u & G & N). apply (user_found idtext inj D _ _ _ _ _ I) in G as [Hin _]. cbn [SchedRows.perm_row pm_role pm_user u_username].
    unfold SchedRows.perm_row. cbn [pm_role pm_user u_username]. rewrite <- N.
    rewrite (SchedRows.named_user_in _ (v_uname _ _ _ _ _ I) u Hin). discriminate.
  - destruct (HR E) as (r & G & N). apply (role_found idtext inj trim g D _ _ _ _ _ I) in G as [Hin _].
    unfold SchedRows.perm_row. cbn [pm_role pm_user ro_slug]. rewrite <- N.
    rewrite (SchedRows.slug_role_in _ (v_slug _ _ _ _ _ I) r Hin). discriminate.
Qed.
Print Assumptions C101_users_found.
Print Assumptions C101_roles_found.
Print Assumptions C101_roles_of.
Print Assumptions C101_user_accepted.
Print Assumptions C101_assign_accepted.
Print Assumptions C101_role_accepted.
Print Assumptions C101_slug_refuted.
Print Assumptions C101_permission_by_id_refuted.
Print Assumptions C101_permission_by_name.
