(** C99: a scheduled job is stored and read back whole.
    The PostgreSQL statements that create, read, list as active and update scheduled jobs, with their permissions:
    datastore/postgres/postgres.go:1157-1166,1198-1204,1271-1390,1484-1567, datastore/postgres/record.go:87-103,398-450,
    db/postgres/schema.go:20-73.
    As in Rows.v: columns are bound to arguments by position, rows are read by column name; text is valid UTF-8 whose length
    is counted in bytes; identifiers fit their column.  Rows come back in the order they went in.  The tables of users and
    roles hold what toUser and toRole give back; ids never collide with user names or slugs (C63). *)
From Coq Require Import Ascii.
From Verif Require Import Types Handlers Scheduled Wire StateProofs Rows.
Open Scope string_scope.
Open Scope list_scope.
Open Scope Z_scope.

(* ------------------------------------------------------------------ *)
(** * Model *)
(** job.go:59-76: identity, state, creation time and the rest *)
Record sjob := mkSJob { sr_id : id; sr_state : sstate; sr_created : time; sr_def : sdef }.
(** schema.go:51-66 *)
Definition sched_schema : list column :=
  [mkCol "id" (KVarchar 32) true CNull;
   mkCol "name" (KVarchar 64) true CNull;
   mkCol "description" KText true CNull;
   mkCol "tags" KArr true (CArr []);
   mkCol "cron_expr" (KVarchar 64) true CNull;
   mkCol "inputs" KJson true CNull;
   mkCol "output_" KText true CNull;
   mkCol "tasks" KJson true CNull;
   mkCol "defaults" KJson false CNull;
   mkCol "webhooks" KJson false CNull;
   mkCol "auto_delete" KJson false CNull;
   mkCol "secrets" KJson false CNull;
   mkCol "created_at" KTime true CNull;
   mkCol "created_by" (KVarchar 32) true CNull;
   mkCol "state" (KVarchar 10) true CNull].
(** job.go:54-57 *)
Definition sstate_name (s : sstate) : string := match s with SActive => "ACTIVE" | SPaused => "PAUSED" end.
Definition sstates : list (string * sstate) := [("ACTIVE", SActive); ("PAUSED", SPaused)].
(** schema.go:68-73 without the row's own id *)
Record prow := mkPRow { pr_job : id; pr_user : option id; pr_role : option id }.
Record sdb := mkSDb { db_rows : list row; db_perms : list prow }.

(** a loop that returns at the first error *)
Fixpoint every {A B} (f : A -> option B) (l : list A) : option (list B) :=
  match l with [] => Some [] | x :: l => let? y := f x in let? ys := every f l in Some (y :: ys) end.

Section Sched.
(** the encryption of secrets (C35), as in Rows.v *)
Variable shut : smap -> smap.
Variable unshut : smap -> option smap.
Hypothesis shut_nil : shut [] = [].
Hypothesis unshut_shut : forall m, unshut (shut m) = Some m.
Hypothesis shut_keeps : forall m, m <> [] -> shut m <> [].
(** the other tables *)
Variable users : list user.
Variable roles : list role.

(** postgres.go:1157-1166 with an id *)
Definition get_user (i : id) : option user := find (fun u => N.eqb (u_id u) i) users.
(** postgres.go:1157-1166 with a user name, and the same look-up in 1352 *)
Definition named_user (n : string) : option user := find (fun u => String.eqb (u_username u) n) users.
(** postgres.go:1198-1204 with an id *)
Definition get_role (i : id) : option role := find (fun r => N.eqb (ro_id r) i) roles.
(** postgres.go:1353 *)
Definition slug_role (s : string) : option role := find (fun r => String.eqb (ro_slug r) s) roles.

(** postgres.go:1334-1335 *)
Definition sched_columns : list string := ["id"; "name"; "description"; "created_at"; "tasks"; "inputs"; "output_"; "defaults"; "webhooks"; "created_by"; "tags"; "auto_delete"; "secrets"; "cron_expr"; "state"].
(** postgres.go:1338-1340 *)
Definition sched_args (by_ : id) (s : sjob) : list cell :=
  let d := sr_def s in
  [CId (sr_id s); CText (sd_name d); CText (sd_description d); CTime (sr_created s); c_list enc_task (sd_tasks d);
   c_map0 (sd_inputs d); CText (sd_output d); c_json (o_ptr enc_defaults (sd_defaults d)); c_list enc_webhook (sd_webhooks d); CId by_;
   CArr (sd_tags d); c_json (o_ptr enc_autodelete (sd_autodelete d)); c_json (o_map (shut (sd_secrets d))); CText (sd_cron d); CText (sstate_name (sr_state s))].
(** postgres.go:1344-1357: one row per permission; a name not found is '' and breaks the foreign key; a permission without role
    and user is a nil dereference *)
Definition perm_row (i : id) (p : permission) : option prow :=
  match pm_role p with
  | Some r => option_map (fun x => mkPRow i None (Some (ro_id x))) (slug_role (ro_slug r))
  | None => match pm_user p with
            | Some u => option_map (fun x => mkPRow i (Some (u_id x)) None) (named_user (u_username u))
            | None => None
            end
  end.
(** CreateScheduledJob, postgres.go:1271-1364: all in one transaction *)
Definition create_sched (D : sdb) (s : sjob) : option sdb :=
  if is_noid (sr_id s) then None else
  let? u := match sd_createdby (sr_def s) with Some u => Some u | None => named_user "guest" end in
  let? r := insert sched_schema sched_columns (sched_args (u_id u) s) in
  if row_ok sched_schema r && negb (existsb (is_row (sr_id s)) (db_rows D))
     && existsb (fun x => N.eqb (u_id x) (u_id u)) users
  then let? ps := every (perm_row (sr_id s)) (sd_permissions (sr_def s)) in
       Some (mkSDb (db_rows D ++ [r]) (db_perms D ++ ps))
  else None.

(** record.go:398-450; tasks and creator: postgres.go:1492-1499 *)
Definition to_sched (n : nat) (perms : list permission) (r : row) : option sjob :=
  let g := at_ r in
  let? v1 := q_json (d_arr (dec_task n)) (g "tasks") in
  let? c2 := q_id (g "created_by") in let? v2 := get_user c2 in
  let? v3 := q_json d_map (g "inputs") in
  let? v4 := q_json (d_ptr dec_defaults) (g "defaults") in
  let? v5 := q_json (d_ptr dec_autodelete) (g "auto_delete") in
  let? v6 := q_json (d_arr dec_webhook) (g "webhooks") in
  let? c7 := q_json d_map (g "secrets") in
  let? v7 := match c7 with [] => Some [] | _ => unshut c7 end in
  let? v8 := q_id (g "id") in let? v9 := q_text (g "cron_expr") in let? v10 := q_text (g "name") in let? v11 := q_arr (g "tags") in
  let? v12 := q_state sstates (g "state") in let? v13 := q_time (g "created_at") in
  let? v14 := q_text (g "description") in let? v15 := q_text (g "output_") in
  Some (mkSJob v8 v12 v13 (mkSDef v10 v14 v9 v3 v1 (Some v2) v4 v5 v6 perms v11 v7 v15)).
(** postgres.go:1507-1524 *)
Definition to_perm (p : prow) : option permission :=
  match pr_role p with
  | Some r => option_map (fun x => mkPermission (Some x) None) (get_role r)
  | None => match pr_user p with Some u => option_map (fun x => mkPermission None (Some x)) (get_user u) | None => None end
  end.
(** GetScheduledJobByID, postgres.go:1484-1526 *)
Definition get_sched (n : nat) (D : sdb) (i : id) : option sjob :=
  let? r := find (is_row i) (db_rows D) in
  let? ps := every to_perm (filter (fun p => N.eqb (pr_job p) i) (db_perms D)) in
  to_sched n ps r.
(** GetActiveScheduledJobs, postgres.go:1366-1390 *)
Definition is_active_row (r : row) : bool := match at_ r "state" with CText s => String.eqb s "ACTIVE" | _ => false end.
Definition active_sched (n : nat) (D : sdb) : option (list sjob) := every (to_sched n []) (filter is_active_row (db_rows D)).
(** UpdateScheduledJob, postgres.go:1528-1558 *)
Definition update_sched (n : nat) (D : sdb) (i : id) (modify : sjob -> option sjob) : option sdb :=
  let? r := find (is_row i) (db_rows D) in
  let? s := to_sched n [] r in
  let? s' := modify s in
  let T := map (fun r => if is_row (sr_id s') r then update r ["state"] [CText (sstate_name (sr_state s'))] else r) (db_rows D) in
  if forallb (row_ok sched_schema) T then Some (mkSDb T (db_perms D)) else None.

(* ------------------------------------------------------------------ *)
(** * Specification *)
(** What each column can hold. *)
Record storable_sched (s : sjob) : Prop := mkStorableSched {
  ss_short : short 64 (sd_name (sr_def s)) /\ short 64 (sd_cron (sr_def s));
  ss_text : clean (sd_description (sr_def s)) /\ clean (sd_output (sr_def s));
  ss_clean_tags : Forall clean (sd_tags (sr_def s));
  ss_maps : forall k v, In (k, v) (sd_inputs (sr_def s)) \/ In (k, v) (shut (sd_secrets (sr_def s))) -> clean k /\ clean v;
  ss_tasks : Forall (fun x => json_free (enc_task x) = true) (sd_tasks (sr_def s));
  ss_webhooks : Forall (fun x => json_free (enc_webhook x) = true) (sd_webhooks (sr_def s));
  ss_defaults : match sd_defaults (sr_def s) with Some x => json_free (enc_defaults x) = true | None => True end;
  ss_autodelete : match sd_autodelete (sr_def s) with Some x => json_free (enc_autodelete x) = true | None => True end }.
(** A permission as it was given and as it comes back: the role of that slug, or else the user of that name. *)
Inductive means (p : permission) : permission -> Prop :=
| mn_role r x : pm_role p = Some r -> In x roles -> ro_slug x = ro_slug r -> means p (mkPermission (Some x) None)
| mn_user u x : pm_role p = None -> pm_user p = Some u -> In x users -> u_username x = u_username u -> means p (mkPermission None (Some x)).
(** Who created it: the guest unless said otherwise. *)
Definition creator (s : sjob) (u : user) : Prop :=
  match sd_createdby (sr_def s) with Some v => u = v | None => In u users /\ u_username u = "guest" end.
(** What comes back of [s]. *)
Record comes_back (s s' : sjob) : Prop := mkBack {
  cb_self : sr_id s' = sr_id s /\ sr_state s' = sr_state s /\ sr_created s' = sr_created s;
  cb_creator : exists u, creator s u /\ sd_createdby (sr_def s') = Some u;
  cb_perms : Forall2 means (sd_permissions (sr_def s)) (sd_permissions (sr_def s'));
  cb_tasks : sd_tasks (sr_def s') = map bare (sd_tasks (sr_def s));
  cb_rest : let d := sr_def s in let d' := sr_def s' in
    sd_name d' = sd_name d /\ sd_description d' = sd_description d /\ sd_cron d' = sd_cron d /\ sd_inputs d' = sd_inputs d /\
    sd_defaults d' = sd_defaults d /\ sd_autodelete d' = sd_autodelete d /\ sd_webhooks d' = sd_webhooks d /\
    sd_tags d' = sd_tags d /\ sd_secrets d' = sd_secrets d /\ sd_output d' = sd_output d }.

(* ------------------------------------------------------------------ *)
(** * Proofs *)
(** the other tables' unique columns (schema.go:20-40) *)
Hypothesis user_ids : NoDup (map u_id users).
Hypothesis user_names : NoDup (map u_username users).
Hypothesis role_ids : NoDup (map ro_id roles).
Hypothesis role_slugs : NoDup (map ro_slug roles).

Lemma find_unique {A K} (key : A -> K) (eqb : K -> K -> bool) (Heq : forall a b, eqb a b = true <-> a = b) (l : list A) x :
  NoDup (map key l) -> In x l -> find (fun y => eqb (key y) (key x)) l = Some x.
Proof.
  intros ND Hin. induction l as [|y l IH]; [destruct Hin|]. cbn [map find] in *. inversion ND as [|? ? Hn Hd]; subst.
  destruct (eqb (key y) (key x)) eqn:E.
  - apply Heq in E. destruct Hin as [->|Hin]; [reflexivity|]. destruct Hn. rewrite E. now apply in_map.
  - destruct Hin as [->|Hin]; [|auto]. assert (eqb (key x) (key x) = true) by now apply Heq. congruence.
Qed.
Lemma get_user_in x : In x users -> get_user (u_id x) = Some x.
Proof. intro H. exact (find_unique u_id N.eqb (fun a b => N.eqb_eq a b) users x user_ids H). Qed.
Lemma get_role_in x : In x roles -> get_role (ro_id x) = Some x.
Proof. intro H. exact (find_unique ro_id N.eqb (fun a b => N.eqb_eq a b) roles x role_ids H). Qed.
Lemma named_user_in x : In x users -> named_user (u_username x) = Some x.
Proof. intro H. exact (find_unique u_username String.eqb (fun a b => String.eqb_eq a b) users x user_names H). Qed.
Lemma slug_role_in x : In x roles -> slug_role (ro_slug x) = Some x.
Proof. intro H. exact (find_unique ro_slug String.eqb (fun a b => String.eqb_eq a b) roles x role_slugs H). Qed.
Lemma named_user_spec n x : named_user n = Some x <-> In x users /\ u_username x = n.
Proof.
  split.
  - intro H. apply find_some in H as [H1 H2]. apply String.eqb_eq in H2. auto.
  - intros [H <-]. now apply named_user_in.
Qed.
Lemma slug_role_spec n x : slug_role n = Some x <-> In x roles /\ ro_slug x = n.
Proof.
  split.
  - intro H. apply find_some in H as [H1 H2]. apply String.eqb_eq in H2. auto.
  - intros [H <-]. now apply slug_role_in.
Qed.

Definition sched_row_of (by_ : id) (s : sjob) : row :=
  let d := sr_def s in
  [("id", CId (sr_id s)); ("name", CText (sd_name d)); ("description", CText (sd_description d)); ("tags", CArr (sd_tags d));
   ("cron_expr", CText (sd_cron d)); ("inputs", c_map0 (sd_inputs d)); ("output_", CText (sd_output d)); ("tasks", c_list enc_task (sd_tasks d));
   ("defaults", c_json (o_ptr enc_defaults (sd_defaults d))); ("webhooks", c_list enc_webhook (sd_webhooks d));
   ("auto_delete", c_json (o_ptr enc_autodelete (sd_autodelete d))); ("secrets", c_json (o_map (shut (sd_secrets d))));
   ("created_at", CTime (sr_created s)); ("created_by", CId by_); ("state", CText (sstate_name (sr_state s)))].
Lemma sched_insert_generic v1 v2 v3 v4 v5 v6 v7 v8 v9 v10 v11 v12 v13 v14 v15 :
  insert sched_schema sched_columns [v1; v2; v3; v4; v5; v6; v7; v8; v9; v10; v11; v12; v13; v14; v15] =
  Some [("id", v1); ("name", v2); ("description", v3); ("tags", v11); ("cron_expr", v14); ("inputs", v6); ("output_", v7); ("tasks", v5);
        ("defaults", v8); ("webhooks", v9); ("auto_delete", v12); ("secrets", v13); ("created_at", v4); ("created_by", v10); ("state", v15)].
Proof. reflexivity. Qed.
Lemma sched_insert b s : insert sched_schema sched_columns (sched_args b s) = Some (sched_row_of b s).
Proof. unfold sched_args. cbv zeta. now rewrite sched_insert_generic. Qed.
Lemma sched_update_generic a1 a2 a3 a4 a5 a6 a7 a8 a9 a10 a11 a12 a13 a14 a15 v :
  update [("id", a1); ("name", a2); ("description", a3); ("tags", a4); ("cron_expr", a5); ("inputs", a6); ("output_", a7); ("tasks", a8);
        ("defaults", a9); ("webhooks", a10); ("auto_delete", a11); ("secrets", a12); ("created_at", a13); ("created_by", a14); ("state", a15)] ["state"] [v]
  = [("id", a1); ("name", a2); ("description", a3); ("tags", a4); ("cron_expr", a5); ("inputs", a6); ("output_", a7); ("tasks", a8);
        ("defaults", a9); ("webhooks", a10); ("auto_delete", a11); ("secrets", a12); ("created_at", a13); ("created_by", a14); ("state", v)].
Proof. reflexivity. Qed.
Definition with_state (st : sstate) (s : sjob) : sjob := mkSJob (sr_id s) st (sr_created s) (sr_def s).
Lemma sched_update b s st : update (sched_row_of b s) ["state"] [CText (sstate_name st)] = sched_row_of b (with_state st s).
Proof. unfold sched_row_of. cbv zeta. now rewrite sched_update_generic. Qed.

Lemma sched_checks b s : row_ok sched_schema (sched_row_of b s) = forallb (fun b => b)
  [fits (KVarchar 32) (CId (sr_id s)) && (negb true || negb (is_null (CId (sr_id s))));
   fits (KVarchar 64) (CText (sd_name (sr_def s))) && (negb true || negb (is_null (CText (sd_name (sr_def s)))));
   fits KText (CText (sd_description (sr_def s))) && (negb true || negb (is_null (CText (sd_description (sr_def s)))));
   fits KArr (CArr (sd_tags (sr_def s))) && (negb true || negb (is_null (CArr (sd_tags (sr_def s)))));
   fits (KVarchar 64) (CText (sd_cron (sr_def s))) && (negb true || negb (is_null (CText (sd_cron (sr_def s)))));
   fits KJson (c_map0 (sd_inputs (sr_def s))) && (negb true || negb (is_null (c_map0 (sd_inputs (sr_def s)))));
   fits KText (CText (sd_output (sr_def s))) && (negb true || negb (is_null (CText (sd_output (sr_def s)))));
   fits KJson (c_list enc_task (sd_tasks (sr_def s))) && (negb true || negb (is_null (c_list enc_task (sd_tasks (sr_def s)))));
   fits KJson (c_json (o_ptr enc_defaults (sd_defaults (sr_def s)))) && (negb false || negb (is_null (c_json (o_ptr enc_defaults (sd_defaults (sr_def s))))));
   fits KJson (c_list enc_webhook (sd_webhooks (sr_def s))) && (negb false || negb (is_null (c_list enc_webhook (sd_webhooks (sr_def s)))));
   fits KJson (c_json (o_ptr enc_autodelete (sd_autodelete (sr_def s)))) && (negb false || negb (is_null (c_json (o_ptr enc_autodelete (sd_autodelete (sr_def s))))));
   fits KJson (c_json (o_map (shut (sd_secrets (sr_def s))))) && (negb false || negb (is_null (c_json (o_map (shut (sd_secrets (sr_def s)))))));
   fits KTime (CTime (sr_created s)) && (negb true || negb (is_null (CTime (sr_created s))));
   fits (KVarchar 32) (CId b) && (negb true || negb (is_null (CId b)));
   fits (KVarchar 10) (CText (sstate_name (sr_state s))) && (negb true || negb (is_null (CText (sstate_name (sr_state s)))))].
Proof. reflexivity. Qed.
Lemma sched_accepted b s : row_ok sched_schema (sched_row_of b s) = true <-> storable_sched s.
Proof.
  rewrite sched_checks. cbn [forallb negb orb is_null]. rewrite ?andb_true_r.
  rewrite !andb_true_iff, !fits_varchar, !fits_arr', !fits_map, !fits_list, !fits_ptr.
  split.
  - intro H. repeat match goal with H : _ /\ _ |- _ => destruct H end.
    constructor; auto. intros k v [K|K]; auto. eapply fits_map0; eassumption.
  - intros [C1 C2 C3 C4 C5 C6 C7 C8].
    repeat match goal with H : _ /\ _ |- _ => destruct H end.
    assert (S : short 10 (sstate_name (sr_state s))) by (destruct (sr_state s); (split; [reflexivity|cbn; lia])).
    assert (forall X, fits (KVarchar 32) (CId X) = true) by reflexivity.
    repeat match goal with |- _ /\ _ => split end; try assumption; try reflexivity;
      try match goal with |- fits KJson (c_map0 _) = true => apply fits_map0 end; intros; eapply C4; eauto.
Qed.

Lemma rq_sstate s : q_state sstates (CText (sstate_name s)) = Some s.
Proof. now destruct s. Qed.
Lemma rq_shut m : (match shut m with [] => Some [] | _ => unshut (shut m) end) = Some m.
Proof.
  destruct m as [|p m]; [now rewrite shut_nil|]. pose proof (shut_keeps (p :: m) ltac:(discriminate)) as N.
  destruct (shut (p :: m)) eqn:E; [congruence|]. rewrite <- E. apply unshut_shut.
Qed.
Definition read_back (u : user) (ps : list permission) (s : sjob) : sjob :=
  let d := sr_def s in
  mkSJob (sr_id s) (sr_state s) (sr_created s)
    (mkSDef (sd_name d) (sd_description d) (sd_cron d) (sd_inputs d) (map bare (sd_tasks d)) (Some u) (sd_defaults d) (sd_autodelete d)
       (sd_webhooks d) ps (sd_tags d) (sd_secrets d) (sd_output d)).
Lemma read_sched n ps u s : In u users -> Forall (sends n) (sd_tasks (sr_def s)) ->
  to_sched n ps (sched_row_of (u_id u) s) = Some (read_back u ps s).
Proof.
  intros Hu H1. unfold to_sched. cbv zeta.
  set (g := at_ (sched_row_of (u_id u) s)). assert (G : forall k, g k = at_ (sched_row_of (u_id u) s) k) by reflexivity. clearbody g.
  rnext. { exact (rt_arr' _ _ _ _ H1). }
  rnext. eapply bind_some; [exact (get_user_in u Hu)|].
  eapply bind_some. { rewrite G; erewrite at_bound by reflexivity. apply rq_map0. }
  rnext. { ptr rt_defaults. reflexivity. }
  rnext. { ptr rt_autodelete. reflexivity. }
  rnext. { apply (rt_arr' _ _ (fun x => x)). apply Forall_forall; intros; apply rt_webhook. }
  rnext. { apply rt_map. }
  eapply bind_some; [apply rq_shut|].
  do 4 rnext.
  eapply bind_some. { rewrite G; erewrite at_bound by reflexivity. apply rq_sstate. }
  do 3 rnext.
  rewrite map_id. reflexivity.
Qed.

(** ** Tables *)
(** What is held: read back, it is itself. *)
Definition known_perm (p : permission) : Prop :=
  (exists r, p = mkPermission (Some r) None /\ In r roles) \/ (exists u, p = mkPermission None (Some u) /\ In u users).
Record held_sched (s : sjob) : Prop := mkHeldSched {
  hs_by : exists u, sd_createdby (sr_def s) = Some u /\ In u users;
  hs_perms : Forall known_perm (sd_permissions (sr_def s));
  hs_mounts : Forall (fun t => Forall (fun m => m_id m = "") (mounts_in t)) (sd_tasks (sr_def s));
  hs_ok : storable_sched s }.
Definition made_by (s : sjob) : id := match sd_createdby (sr_def s) with Some u => u_id u | None => noid end.
Definition prows (s : sjob) : list prow :=
  map (fun p => match pm_role p with
                | Some r => mkPRow (sr_id s) None (Some (ro_id r))
                | None => mkPRow (sr_id s) (option_map u_id (pm_user p)) None end) (sd_permissions (sr_def s)).
Record represents_scheds (D : sdb) (l : list sjob) : Prop := mkRepS {
  rs_rows : db_rows D = map (fun s => sched_row_of (made_by s) s) l; rs_perms : db_perms D = flat_map prows l;
  rs_ids : NoDup (map sr_id l); rs_held : Forall held_sched l }.

Lemma find_sched i l : find (is_row i) (map (fun s => sched_row_of (made_by s) s) l)
  = option_map (fun s => sched_row_of (made_by s) s) (find (fun s => N.eqb (sr_id s) i) l).
Proof.
  induction l as [|s l IH]; cbn [map find]; [reflexivity|].
  change (is_row i (sched_row_of (made_by s) s)) with (N.eqb (sr_id s) i). destruct (N.eqb (sr_id s) i); auto.
Qed.
Lemma exists_sched i l : existsb (is_row i) (map (fun s => sched_row_of (made_by s) s) l) = existsb (fun s => N.eqb (sr_id s) i) l.
Proof. induction l as [|s l IH]; cbn [map existsb]; [reflexivity|]. now rewrite IH. Qed.
Lemma exists_sched_id i l : existsb (fun s => N.eqb (sr_id s) i) l = false <-> ~ In i (map sr_id l).
Proof.
  split.
  - intros H Hin. apply in_map_iff in Hin as (s & E & Hin).
    assert (existsb (fun s => N.eqb (sr_id s) i) l = true) by (apply existsb_exists; exists s; split; auto; now apply N.eqb_eq). congruence.
  - intro H. destruct (existsb _ l) eqn:E; auto. apply existsb_exists in E as (s & Hin & E). apply N.eqb_eq in E. subst.
    destruct H. now apply in_map.
Qed.
Lemma prows_job s p : In p (prows s) -> pr_job p = sr_id s.
Proof. unfold prows. intro H. apply in_map_iff in H as (q & <- & _). now destruct (pm_role q). Qed.
Lemma filter_all {A} (f : A -> bool) l : (forall x, In x l -> f x = true) -> filter f l = l.
Proof. induction l as [|x l IH]; cbn; intro H; [reflexivity|]. rewrite (H x) by auto. f_equal. apply IH. auto. Qed.
Lemma filter_none {A} (f : A -> bool) l : (forall x, In x l -> f x = false) -> filter f l = [].
Proof. induction l as [|x l IH]; cbn; intro H; [reflexivity|]. rewrite (H x) by auto. apply IH. auto. Qed.
Lemma perms_of l s : NoDup (map sr_id l) -> In s l -> filter (fun p => N.eqb (pr_job p) (sr_id s)) (flat_map prows l) = prows s.
Proof.
  intros ND Hin. induction l as [|x l IH]; [destruct Hin|]. cbn [map flat_map] in *. inversion ND as [|? ? Hn Hd]; subst.
  rewrite filter_app. destruct Hin as [->|Hin].
  - rewrite (filter_all _ (prows s)) by (intros p Hp; apply N.eqb_eq; exact (prows_job s p Hp)).
    rewrite filter_none; [apply app_nil_r|]. intros p Hp. apply in_flat_map in Hp as (y & Hy & Hp). apply N.eqb_neq. intro E.
    destruct Hn. rewrite <- E, (prows_job y p Hp). now apply in_map.
  - rewrite (filter_none _ (prows x)); [exact (IH Hd Hin)|]. intros p Hp. apply N.eqb_neq. rewrite (prows_job x p Hp). intro E.
    destruct Hn. rewrite E. now apply in_map.
Qed.
Lemma every_all {A B} (f : A -> option B) l l' : Forall2 (fun a b => f a = Some b) l l' -> every f l = Some l'.
Proof. induction 1 as [|a b l l' E H IH]; cbn; [reflexivity|]. now rewrite E, IH. Qed.
Lemma every_inv {A B} (f : A -> option B) l : forall l', every f l = Some l' -> Forall2 (fun a b => f a = Some b) l l'.
Proof.
  induction l as [|a l IH]; cbn; intros l' H; [injection H as <-; constructor|].
  destruct (f a) as [b|] eqn:E; [|discriminate]. destruct (every f l) as [bs|]; [|discriminate]. injection H as <-. constructor; auto.
Qed.
Lemma perms_back s : Forall known_perm (sd_permissions (sr_def s)) -> every to_perm (prows s) = Some (sd_permissions (sr_def s)).
Proof.
  intro H. apply every_all. unfold prows. induction H as [|p l [(r & -> & Hr)|(u & -> & Hu)] H IH]; cbn [map]; constructor; auto.
  - cbn. now rewrite (get_role_in r Hr).
  - cbn. now rewrite (get_user_in u Hu).
Qed.
Lemma all_scheds_nested (l : list sjob) : exists n0, forall n, (n0 <= n)%nat -> Forall (fun s => Forall (sends n) (sd_tasks (sr_def s))) l.
Proof.
  induction l as [|t ts [m IH]]; [exists 0%nat; constructor|]. destruct (all_sent (sd_tasks (sr_def t))) as [n N].
  exists (n + m)%nat. intros k K. constructor; [apply (sent_more n); [lia|exact N]|apply IH; lia].
Qed.
Definition without_perms (s : sjob) : sjob := match s with mkSJob i st c d =>
  mkSJob i st c (mkSDef (sd_name d) (sd_description d) (sd_cron d) (sd_inputs d) (sd_tasks d) (sd_createdby d) (sd_defaults d) (sd_autodelete d)
       (sd_webhooks d) [] (sd_tags d) (sd_secrets d) (sd_output d)) end.
Lemma read_held n s : held_sched s -> Forall (sends n) (sd_tasks (sr_def s)) ->
  to_sched n (sd_permissions (sr_def s)) (sched_row_of (made_by s) s) = Some s /\
  to_sched n [] (sched_row_of (made_by s) s) = Some (without_perms s).
Proof.
  intros [(u & E & Hu) _ M _] H. assert (Em : made_by s = u_id u) by (unfold made_by; now rewrite E).
  assert (B : map bare (sd_tasks (sr_def s)) = sd_tasks (sr_def s)).
  { apply map_same. eapply Forall_impl; [|exact M]. intros t. apply bare_same. }
  rewrite Em, !(read_sched n _ u s Hu H). unfold read_back. rewrite B. destruct s as [i st c d]. destruct d. cbn in *. subst. split; reflexivity.
Qed.

(** A scheduled job is read back exactly as it is held, permissions and creator included. *)
Theorem C99_read : forall D l, represents_scheds D l -> exists n0, forall n, (n0 <= n)%nat -> forall i,
  get_sched n D i = find (fun s => N.eqb (sr_id s) i) l.
Proof.
  intros D l [ER EP ND H]. destruct (all_scheds_nested l) as [n0 N]. exists n0. intros n L i. specialize (N n L).
  unfold get_sched. rewrite ER, EP, find_sched. destruct (find _ l) as [s|] eqn:E; [|reflexivity]. cbn [option_map].
  apply find_some in E as [Hin Ei]. apply N.eqb_eq in Ei. subst i. rewrite Forall_forall in N, H.
  rewrite (perms_of l s ND Hin), (perms_back s (hs_perms s (H s Hin))). apply (read_held n s (H s Hin) (N s Hin)).
Qed.
(** The active ones, in order and each whole but for its permissions, are what a starting coordinator gets; one job cannot hide
    another. *)
Theorem C99_active : forall D l, represents_scheds D l -> exists n0, forall n, (n0 <= n)%nat ->
  active_sched n D = Some (map without_perms (filter (fun s => sstate_eqb (sr_state s) SActive) l)).
Proof.
  intros D l [ER EP ND H]. destruct (all_scheds_nested l) as [n0 N]. exists n0. intros n L. specialize (N n L).
  unfold active_sched. rewrite ER. apply every_all. clear ER EP ND.
  induction l as [|s l IH]; [constructor|]. cbn [map filter].
  inversion H as [|? ? Hs Hl]; subst. inversion N as [|? ? Ns Nl]; subst.
  change (is_active_row (sched_row_of (made_by s) s)) with (String.eqb (sstate_name (sr_state s)) "ACTIVE").
  destruct (sr_state s); cbn [sstate_name sstate_eqb String.eqb]; cbn.
  - constructor; [apply (read_held n s Hs Ns)|apply IH; auto].
  - apply IH; auto.
Qed.

Lemma perm_row_spec i p x : perm_row i p = Some x <->
  exists q, means p q /\ x = match pm_role q with Some r => mkPRow i None (Some (ro_id r)) | None => mkPRow i (option_map u_id (pm_user q)) None end.
Proof.
  unfold perm_row. split.
  - destruct (pm_role p) as [r|] eqn:R.
    + destruct (slug_role (ro_slug r)) as [y|] eqn:E; [|discriminate]. intro H. injection H as <-. apply slug_role_spec in E as [E1 E2].
      exists (mkPermission (Some y) None). split; [exact (mn_role p r y R E1 E2)|reflexivity].
    + destruct (pm_user p) as [u|] eqn:U; [|discriminate]. destruct (named_user (u_username u)) as [y|] eqn:E; [|discriminate].
      intro H. injection H as <-. apply named_user_spec in E as [E1 E2].
      exists (mkPermission None (Some y)). split; [exact (mn_user p u y R U E1 E2)|reflexivity].
  - intros (q & M & ->). destruct M as [r y R Hy Es|u y R U Hy Es]; cbn [pm_role pm_user option_map]; rewrite R.
    + assert (E : slug_role (ro_slug r) = Some y) by (apply slug_role_spec; auto). now rewrite E.
    + rewrite U. assert (E : named_user (u_username u) = Some y) by (apply named_user_spec; auto). now rewrite E.
Qed.
Lemma means_unique p q q' : means p q -> means p q' -> q = q'.
Proof.
  intros [r x R Hx Ex|u x R U Hx Ex] [r' x' R' Hx' Ex'|u' x' R' U' Hx' Ex']; try congruence.
  - assert (r' = r) by congruence. subst. assert (slug_role (ro_slug r) = Some x) by (apply slug_role_spec; auto).
    assert (slug_role (ro_slug r) = Some x') by (apply slug_role_spec; auto). congruence.
  - assert (u' = u) by congruence. subst. assert (named_user (u_username u) = Some x) by (apply named_user_spec; auto).
    assert (named_user (u_username u) = Some x') by (apply named_user_spec; auto). congruence.
Qed.
Lemma perm_rows_spec i ps : (exists rs, every (perm_row i) ps = Some rs) <-> Forall (fun p => exists q, means p q) ps.
Proof.
  split.
  - intros [rs H]. apply every_inv in H. induction H as [|p x ps rs E H IH]; constructor; auto. apply perm_row_spec in E as (q & M & _). eauto.
  - intro H. assert (exists rs, Forall2 (fun a b => perm_row i a = Some b) ps rs) as [rs K].
    { induction H as [|p ps (q & M) H [rs IH]]; [exists []; constructor|]. eexists (_ :: rs). constructor; [|exact IH].
      apply perm_row_spec. exists q. split; [exact M|reflexivity]. }
    exists rs. now apply every_all.
Qed.

(** A scheduled job is accepted exactly when it has an id not used before, every permission names a role or a user there is (and so
    does the creator, the guest if none is given), and every column can hold its value; then all of it comes back. *)
Theorem C99_created : forall D l s, represents_scheds D l -> (forall u, sd_createdby (sr_def s) = Some u -> In u users) ->
  ((exists D', create_sched D s = Some D') <->
     sr_id s <> noid /\ ~ In (sr_id s) (map sr_id l) /\ (exists u, creator s u) /\
     Forall (fun p => exists q, means p q) (sd_permissions (sr_def s)) /\ storable_sched s) /\
  (forall D', create_sched D s = Some D' -> exists s', comes_back s s' /\ represents_scheds D' (l ++ [s'])).
Proof.
  intros D l s R HU. pose proof R as [ER EP ND H].
  assert (CR : forall u, creator s u -> In u users /\ match sd_createdby (sr_def s) with Some v => Some v | None => named_user "guest" end = Some u).
  { intros u Hu. unfold creator in Hu. destruct (sd_createdby (sr_def s)) as [v|].
    - subst. split; [apply HU|]; reflexivity.
    - split; [apply Hu|now apply named_user_spec]. }
  assert (CR' : forall u, match sd_createdby (sr_def s) with Some v => Some v | None => named_user "guest" end = Some u -> creator s u).
  { intros u Hu. unfold creator. destruct (sd_createdby (sr_def s)) as [v|]; [congruence|now apply named_user_spec]. }
  unfold create_sched. destruct (is_noid (sr_id s)) eqn:EI.
  { apply N.eqb_eq in EI. split; [|discriminate]. split; [intros [D' X]; discriminate X|intros (X & _); destruct (X EI)]. }
  assert (EI' : sr_id s <> noid) by (apply N.eqb_neq; exact EI).
  destruct (match sd_createdby (sr_def s) with Some v => Some v | None => named_user "guest" end) as [u|] eqn:EC.
  2:{ split; [|discriminate]. split; [intros [D' X]; discriminate X|]. intros (_ & _ & (u & Hu) & _). apply CR in Hu as [_ Hu]. discriminate Hu. }
  pose proof (CR' u eq_refl) as CU. destruct (CR u CU) as [Hin _].
  rewrite sched_insert. cbv beta iota.
  assert (EU : existsb (fun x => N.eqb (u_id x) (u_id u)) users = true) by (apply existsb_exists; exists u; split; [exact Hin|apply N.eqb_refl]).
  rewrite EU, andb_true_r, ER, exists_sched.
  pose proof (sched_accepted (u_id u) s) as HA. pose proof (exists_sched_id (sr_id s) l) as HE.
  destruct (row_ok sched_schema (sched_row_of (u_id u) s)).
  2:{ split; [|discriminate]. split; [intros [D' X]; discriminate X|]. intros (_ & _ & _ & _ & X). apply HA in X. discriminate X. }
  destruct (existsb (fun s0 => N.eqb (sr_id s0) (sr_id s)) l).
  { split; [|discriminate]. split; [intros [D' X]; discriminate X|]. intros (_ & X & _). apply HE in X. discriminate X. }
  cbn [andb negb]. pose proof (perm_rows_spec (sr_id s) (sd_permissions (sr_def s))) as HP.
  destruct (every (perm_row (sr_id s)) (sd_permissions (sr_def s))) as [rs|] eqn:EM.
  2:{ split; [|discriminate]. split; [intros [D' X]; discriminate X|]. intros (_ & _ & _ & X & _). apply HP in X as [rs X]. discriminate X. }
  split.
  { split; [intros _|eauto]. repeat match goal with |- _ /\ _ => split end; auto; [apply HE; reflexivity|exists u; exact CU|apply HP; eauto|apply HA; reflexivity]. }
  intros D' X. injection X as <-.
  assert (exists qs, Forall2 means (sd_permissions (sr_def s)) qs /\
    rs = map (fun p => match pm_role p with Some r => mkPRow (sr_id s) None (Some (ro_id r)) | None => mkPRow (sr_id s) (option_map u_id (pm_user p)) None end) qs)
    as (qs & MQ & EQ).
  { apply every_inv in EM. clear - EM user_names role_slugs. induction EM as [|p x ps rs E _ (qs & MQ & ->)]; [exists []; split; [constructor|reflexivity]|].
    apply perm_row_spec in E as (q & M & ->). exists (q :: qs). split; [constructor; auto|reflexivity]. }
  exists (read_back u qs s). split.
  - constructor; try (cbn; repeat match goal with |- _ /\ _ => split end; reflexivity).
    + exists u. split; [exact CU|reflexivity].
    + exact MQ.
  - assert (RowEq : sched_row_of (u_id u) s = sched_row_of (made_by (read_back u qs s)) (read_back u qs s)).
    { unfold made_by, read_back, sched_row_of. cbn [sr_id sr_state sr_created sr_def sd_name sd_description sd_cron sd_inputs sd_tasks sd_createdby sd_defaults
        sd_autodelete sd_webhooks sd_permissions sd_tags sd_secrets sd_output]. unfold c_list. now rewrite bare_arr. }
    constructor.
    + cbn [db_rows]. rewrite map_app. cbn [map]. now rewrite RowEq.
    + cbn [db_perms]. rewrite EP, EQ, flat_map_app. cbn [flat_map]. rewrite app_nil_r. reflexivity.
    + rewrite map_app. cbn [map]. apply NoDup_snoc; auto. change (sr_id (read_back u qs s)) with (sr_id s). apply HE; reflexivity.
    + apply Forall_app. split; [exact H|]. constructor; [|constructor]. constructor.
      * exists u. split; [reflexivity|exact Hin].
      * change (sd_permissions (sr_def (read_back u qs s))) with qs. clear - MQ. induction MQ as [|p q ps qs M MQ IH]; constructor; auto.
        destruct M; [left|right]; eauto.
      * change (sd_tasks (sr_def (read_back u qs s))) with (map bare (sd_tasks (sr_def s))). rewrite Forall_map. apply Forall_forall. intros t _. apply bare_mounts.
      * apply (sched_accepted (u_id u)). change (made_by (read_back u qs s)) with (u_id u) in RowEq. rewrite <- RowEq. apply sched_accepted. now apply HA.
Qed.

(** An update changes the state, and nothing else whatever the caller changed; it never fails on a job that is there. *)
Theorem C99_updated : forall D l, represents_scheds D l -> exists n0, forall n, (n0 <= n)%nat -> forall i modify,
  (forall x y, modify x = Some y -> sr_id y = sr_id x) ->
  match find (fun s => N.eqb (sr_id s) i) l with
  | None => update_sched n D i modify = None
  | Some s =>
      match modify (without_perms s) with
      | None => update_sched n D i modify = None
      | Some s' => exists D', update_sched n D i modify = Some D' /\
          represents_scheds D' (map (fun x => if N.eqb (sr_id x) i then with_state (sr_state s') x else x) l)
      end
  end.
Proof.
  intros D l R. pose proof R as [ER EP ND H]. destruct (all_scheds_nested l) as [n0 N]. exists n0. intros n L i modify M. specialize (N n L).
  unfold update_sched. rewrite ER, EP, find_sched. destruct (find _ l) as [s|] eqn:E; [|reflexivity]. cbn [option_map].
  apply find_some in E as [Hin Ei]. apply N.eqb_eq in Ei. rewrite Forall_forall in N, H.
  destruct (read_held n s (H s Hin) (N s Hin)) as [_ R0]. rewrite R0.
  destruct (modify (without_perms s)) as [s'|] eqn:Em; [|reflexivity].
  assert (Ei' : sr_id s' = i). { rewrite (M _ _ Em). destruct s. exact Ei. }
  rewrite Ei'. set (l' := map (fun x => if N.eqb (sr_id x) i then with_state (sr_state s') x else x) l).
  assert (ET : map (fun r => if is_row i r then update r ["state"] [CText (sstate_name (sr_state s'))] else r) (map (fun s0 => sched_row_of (made_by s0) s0) l)
               = map (fun s0 => sched_row_of (made_by s0) s0) l').
  { unfold l'. rewrite !map_map. apply map_ext. intros x. change (is_row i (sched_row_of (made_by x) x)) with (N.eqb (sr_id x) i).
    destruct (N.eqb (sr_id x) i); [|reflexivity]. now rewrite sched_update. }
  assert (HL : Forall held_sched l').
  { apply Forall_forall. intros x Hx. unfold l' in Hx. apply in_map_iff in Hx as (y & <- & Hy). pose proof (H y Hy) as Y.
    destruct (N.eqb (sr_id y) i); [|exact Y]. destruct Y as [Y1 Y2 Y3 Y4]. constructor; auto. destruct Y4. constructor; auto. }
  rewrite ET. assert (OK : forallb (row_ok sched_schema) (map (fun s0 => sched_row_of (made_by s0) s0) l') = true).
  { apply forallb_forall. intros r Hr. apply in_map_iff in Hr as (x & <- & Hx). apply sched_accepted. rewrite Forall_forall in HL. apply HL. exact Hx. }
  rewrite OK. eexists. split; [reflexivity|]. constructor; [reflexivity| | |exact HL].
  - cbn [db_perms]. unfold l'. clear. induction l as [|x l IH]; [reflexivity|]. cbn [flat_map map]. rewrite IH. f_equal. destruct (N.eqb (sr_id x) i); reflexivity.
  - replace (map sr_id l') with (map sr_id l); [exact ND|]. unfold l'. rewrite map_map. apply map_ext. intros x. destruct (N.eqb (sr_id x) i); reflexivity.
Qed.

Lemma json_map m : (forall k v, In (k, v) m -> clean k /\ clean v) ->
  forallb (fun p : string * json => nul_free (fst p) && json_free (snd p)) (map (fun p : string * string => (fst p, JStr (snd p))) m) = true.
Proof.
  intro H. rewrite forallb_forall. intros p Hp. apply in_map_iff in Hp as ((k, v) & <- & Hk). destruct (H k v Hk) as [A B]. cbn. now rewrite A, B.
Qed.
(** The job made at a tick can always be stored (but see below), if the secrets hold no zero character and there are not more than
    2^31-1 tasks. *)
Theorem C99_instances_fit : forall s i n, storable_sched s -> (forall k v, In (k, v) (sd_secrets (sr_def s)) -> clean k /\ clean v) ->
  Z.of_nat (length (sd_tasks (sr_def s))) < 2147483648 -> storable_job shut (instance i n (sr_id s) (sr_def s)).
Proof.
  intros [st ss sc d] i n [C1 C2 C3 C4 C5 C6 C7 C8] HS HL. cbn [sr_def sr_id] in *. destruct C1 as [[C1 C1'] _]. constructor.
  - split; [exact C1|]. change (j_name (instance i n st d)) with (sd_name d). lia.
  - change (j_result (instance i n st d)) with "". change (j_error (instance i n st d)) with "".
    repeat split; [apply C2|apply C2].
  - exact C3.
  - split; [reflexivity|]. change (j_taskcount (instance i n st d)) with (Z.of_nat (length (sd_tasks d))). unfold int4. apply andb_true_iff. split; [apply Z.leb_le|apply Z.ltb_lt]; lia.
  - exact C4.
  - change (j_context (instance i n st d)) with (mkCtx [] (sd_inputs d) (sd_secrets d) []).
    pose proof (json_map (sd_inputs d) ltac:(intros; apply C4; auto)) as A. pose proof (json_map (sd_secrets d) HS) as B.
    unfold enc_ctx. cbn [c_job c_inputs c_secrets c_tasks o_map]. destruct (sd_inputs d) as [|p m], (sd_secrets d) as [|p' m']; cbn [o_map compact json_free fst snd];
      cbn in A, B |- *; rewrite ?A, ?B; reflexivity.
  - exact C5.
  - exact C6.
  - exact I.
  - exact C8.
Qed.
End Sched.

(* ------------------------------------------------------------------ *)
(** * Non-vacuity and what is false *)
Definition zz_guest : user := mkUser 1%N "Guest" "guest" "" "" (Some 1) true.
Definition zz_ann : user := mkUser 2%N "Ann" "ann" "$2a$" "" (Some 2) false.
Definition zz_ops : role := mkRole 3%N "ops" "Ops" (Some 3).
Definition zz_users : list user := [zz_guest; zz_ann].
(** Ann and the role are named as the API does: by user name and by slug alone. *)
Definition zz_perms : list permission :=
  [mkPermission None (Some (mkUser noid "" "ann" "" "" None false)); mkPermission (Some (mkRole noid "ops" "" None)) None].
Definition zz_def : sdef := mkSDef "nightly" "d" "0 3 * * *" [("i", "")] [ex_nested] None (Some (mkDefaults (Some (mkRetry 2 0)) None "1m" "gpu" 3))
  None [] zz_perms ["t"] [("k", "v")] "out".
Definition zz : sjob := mkSJob 9%N SActive 7 zz_def.
Definition zz_keep (m : smap) : smap := m.
Definition zz_db : sdb := match create_sched zz_keep zz_users [zz_ops] (mkSDb [] []) zz with Some D => D | None => mkSDb [] [] end.
Definition zz_named (n : string) : sjob := mkSJob 9%N SActive 7 (mkSDef n "d" "0 3 * * *" [] [ex_nested] (Some zz_guest) None None [] [] [] [] "").
Fixpoint xs (n : nat) : string := match n with O => "" | S n => ("x" ++ xs n)%string end.
Example C99_nonvacuous :
  represents_scheds zz_keep zz_users [zz_ops] (mkSDb [] []) [] /\
  length (db_rows zz_db) = 1%nat /\ length (db_perms zz_db) = 2%nat /\
  option_map (fun s => sd_permissions (sr_def s)) (get_sched Some zz_users [zz_ops] 5 zz_db 9%N)
    = Some [mkPermission None (Some zz_ann); mkPermission (Some zz_ops) None] /\
  option_map (fun s => (sd_createdby (sr_def s), sd_defaults (sr_def s), sd_cron (sr_def s))) (get_sched Some zz_users [zz_ops] 5 zz_db 9%N)
    = Some (Some zz_guest, sd_defaults zz_def, "0 3 * * *") /\
  option_map (map sr_id) (active_sched Some zz_users 5 zz_db) = Some [9%N] /\
  (exists D', update_sched Some zz_users 5 zz_db 9%N (fun s => Some (mkSJob (sr_id s) SPaused 99 (sr_def (zz_named "other")))) = Some D' /\
     option_map (fun s => (sr_state s, sr_created s, sd_name (sr_def s))) (get_sched Some zz_users [zz_ops] 5 D' 9%N) = Some (SPaused, 7, "nightly") /\
     active_sched Some zz_users 5 D' = Some []) /\
  create_sched zz_keep zz_users [] (mkSDb [] []) zz = None /\ create_sched zz_keep [zz_ann] [zz_ops] (mkSDb [] []) zz = None /\
  create_sched zz_keep zz_users [zz_ops] zz_db zz = None.
Proof.
  split; [constructor; constructor|].
  repeat match goal with |- _ /\ _ => split end; try match goal with |- _ = _ => vm_compute; reflexivity end.
  eexists. split; [vm_compute; reflexivity|]. split; vm_compute; reflexivity.
Qed.
(** A name that a job may have: 65 characters pass validation (there is no limit but 'required', input/job.go:33) and fit the
    jobs table, not this one. *)
Theorem C99_long_name_refuted : exists s, ~ storable_sched zz_keep s /\ create_sched zz_keep zz_users [zz_ops] (mkSDb [] []) s = None /\
  storable_job zz_keep (instance 1%N 0 9%N (sr_def s)).
Proof.
  exists (zz_named (xs 65)). split; [|split; [vm_compute; reflexivity|]].
  - intros [[[_ K] _] _ _ _ _ _ _ _]. vm_compute in K. lia.
  - apply job_accepted; [discriminate|vm_compute; reflexivity].
Qed.
(** A secret with a zero character: encrypted it is plain text and the scheduled job is accepted; the instance carries it in the clear
    in its context (see C35), which jsonb refuses, at every tick. *)
Definition zz_swap1 (c : Ascii.ascii) : Ascii.ascii := if Ascii.eqb c Ascii.zero then "A"%char else if Ascii.eqb c "A"%char then Ascii.zero else c.
Fixpoint zz_swap (s : string) : string := match s with EmptyString => EmptyString | String c s => String (zz_swap1 c) (zz_swap s) end.
Definition zz_shut (m : smap) : smap := map (fun p => (fst p, zz_swap (snd p))) m.
Lemma zz_swap_swap s : zz_swap (zz_swap s) = s.
Proof.
  induction s as [|c s IH]; cbn; [reflexivity|]. rewrite IH. f_equal. unfold zz_swap1. destruct (Ascii.eqb_spec c Ascii.zero) as [->|N]; [reflexivity|].
  destruct (Ascii.eqb_spec c "A"%char) as [->|M]; [reflexivity|]. apply Ascii.eqb_neq in N, M. now rewrite N, M.
Qed.
Theorem C99_secret_zero_refuted : exists (shut unshut : smap -> smap) s D', (forall m, unshut (shut m) = m) /\
  create_sched shut zz_users [zz_ops] (mkSDb [] []) s = Some D' /\ storable_sched shut s /\
  forall i n, ~ storable_job shut (instance i n (sr_id s) (sr_def s)).
Proof.
  exists zz_shut, zz_shut, (mkSJob 9%N SActive 7 (mkSDef "n" "d" "0 3 * * *" [] [ex_nested] None None None [] [] [] [("k", nul)] "")).
  eexists. split; [|split; [vm_compute; reflexivity|split]].
  - intro m. unfold zz_shut. rewrite map_map. cbn. rewrite <- (map_id m) at 2. apply map_ext. intros [k v]. cbn. now rewrite zz_swap_swap.
  - apply (sched_accepted zz_shut 1%N). vm_compute. reflexivity.
  - intros i n [_ _ _ _ _ H _ _ _ _]. vm_compute in H. discriminate H.
Qed.
Print Assumptions C99_read.
Print Assumptions C99_active.
Print Assumptions C99_created.
Print Assumptions C99_updated.
Print Assumptions C99_instances_fit.
Print Assumptions C99_long_name_refuted.
Print Assumptions C99_secret_zero_refuted.
