(** C63: user accounts.
    internal/coordinator/api/api.go:855-897 (createUser); datastore/postgres/postgres.go:1157-1181 (GetUser, CreateUser);
    db/postgres/schema.go:20-29 (table users); engine/coordinator.go:123-136 (basicAuth); internal/hash/hash.go. *)
From Coq Require Import String List Ascii Bool Arith Lia Permutation.
From Verif Require Import Secrets Middleware WebAuth.
Import ListNotations.
Open Scope string_scope.
Open Scope list_scope.

(* ------------------------------------------------------------------ *)
(** * The code *)
Section Accounts.
(** strings.TrimSpace, and internal/hash: Password (bcrypt with a random salt; it may refuse) and CheckPasswordHash *)
Variable trim : string -> string.
Variable hash : string (* salt *) -> string -> option string.
Variable check : string -> string -> bool.

(** the body of POST /users (tork.User, user.go:12-20); json ignores passwordHash *)
Record body := { b_name : string; b_username : string; b_password : string; b_disabled : bool }.
(** a request that has passed the checks and is about to insert: name, user name, password hash *)
Record insertion := { i_name : string; i_username : string; i_hash : string; i_disabled : bool }.
(** api.go:872-891.  The store answers the lookup (an error other than "not found" ends the request as well). *)
Definition checks (salt : string) (us : list user) (b : body) : option insertion :=
  let n := trim (b_username b) in
  if String.eqb n "" then None
  else let p := trim (b_password b) in
  if String.eqb p "" then None
  else match hash salt p with
       | None => None
       | Some h => match get_user us n with
                   | Some _ => None
                   | None => Some {| i_name := b_name b; i_username := n; i_hash := h; i_disabled := b_disabled b |}
                   end
       end.
(** postgres.go:1168-1181: a new row under a new id; is_disabled is not in the column list and takes its default, false.
    The table's constraints (schema.go:21,23) refuse a second row with the same id or user name. *)
Definition row (id : string) (i : insertion) : user :=
  {| u_id := id; u_name := i_name i; u_username := i_username i; u_hash := i_hash i; u_disabled := false |}.
Definition insert (id : string) (us : list user) (i : insertion) : option (list user) :=
  if existsb (fun u => String.eqb (u_username u) (i_username i) || String.eqb (u_id u) id) us then None else Some (us ++ [row id i]).
(** api.go:895: the answer is the user as JSON: user.go:12-20, where passwordHash is "-" and password has been emptied *)
Record reply := { a_id : string; a_name : string; a_username : string; a_password : string; a_disabled : bool }.
Definition answer (id : string) (i : insertion) : reply :=
  {| a_id := id; a_name := i_name i; a_username := i_username i; a_password := ""; a_disabled := i_disabled i |}.

(** ** Many requests at once *)
(** [s_pending]: requests between the lookup and the insertion.  [s_log]: the accounts created so far, each with the trimmed
    password its creator sent (history only). *)
Record state := { s_users : list user; s_pending : list (insertion * string); s_log : list (user * string) }.
Inductive step : state -> state -> Prop :=
| St_check : forall s salt b i, checks salt (s_users s) b = Some i ->
    step s {| s_users := s_users s; s_pending := (i, trim (b_password b)) :: s_pending s; s_log := s_log s |}
| St_insert : forall s before i p after id us,
    s_pending s = before ++ (i, p) :: after ->
    (* uuid.NewUUID: the new id is not a name anyone has or is about to take *)
    (forall u, In u (s_users s) -> u_username u <> id /\ u_id u <> id) ->
    (forall i p, In (i, p) (s_pending s) -> i_username i <> id) ->
    insert id (s_users s) i = Some us ->
    step s {| s_users := us; s_pending := before ++ after; s_log := (row id i, p) :: s_log s |}
| St_drop : forall s before x after, s_pending s = before ++ x :: after ->   (* the insertion failed, or the server died *)
    step s {| s_users := s_users s; s_pending := before ++ after; s_log := s_log s |}.
(** schema.go:29: the guest user, with an empty password hash *)
Definition is_start (s : state) : Prop :=
  exists id, id <> "guest" /\ s_users s = [{| u_id := id; u_name := "Guest"; u_username := "guest"; u_hash := ""; u_disabled := true |}] /\
    s_pending s = [] /\ s_log s = [].
Inductive reach : state -> Prop :=
| R_start : forall s, is_start s -> reach s
| R_step : forall s s', reach s -> step s s' -> reach s'.

(* ------------------------------------------------------------------ *)
(** * Proofs *)
Record inv (s : state) : Prop := {
  v_names : NoDup (map u_username (s_users s));
  v_ids : NoDup (map u_id (s_users s));
  v_apart : forall u v, In u (s_users s) -> In v (s_users s) -> u_username u <> u_id v;
  v_pend : forall i p, In (i, p) (s_pending s) -> (forall u, In u (s_users s) -> u_id u <> i_username i) /\ i_username i <> "" /\ p <> "" /\ exists salt, hash salt p = Some (i_hash i);
  v_log : forall u, In u (s_users s) -> u_username u <> "guest" -> exists p, In (u, p) (s_log s) /\ p <> "" /\ exists salt, hash salt p = Some (u_hash u);
  v_guest : exists id, In {| u_id := id; u_name := "Guest"; u_username := "guest"; u_hash := ""; u_disabled := true |} (s_users s);
  v_logged : forall u p, In (u, p) (s_log s) -> In u (s_users s) /\ u_username u <> "guest"
}.
Lemma get_none : forall us k, get_user us k = None -> forall u, In u us -> u_username u <> k /\ u_id u <> k.
Proof.
  intros us k H u Hu. unfold get_user in H. apply (find_none _ _ H) in Hu. apply orb_false_iff in Hu. destruct Hu as [A B].
  apply String.eqb_neq in A. apply String.eqb_neq in B. auto.
Qed.
Lemma NoDup_snoc : forall (A : Type) (l : list A) x, NoDup l -> ~ In x l -> NoDup (l ++ [x]).
Proof.
  intros A l x H N. apply NoDup_Add with (a := x) (l := l); [|split; assumption]. rewrite <- (app_nil_r l) at 1. apply Add_app.
Qed.
Lemma insert_spec : forall id us i us', insert id us i = Some us' ->
  us' = us ++ [row id i] /\ forall u, In u us -> u_username u <> i_username i /\ u_id u <> id.
Proof.
  intros id us i us' H. unfold insert in H. destruct (existsb _ us) eqn:E; [discriminate|]. injection H as <-. split; [reflexivity|].
  intros u Hu. destruct (String.eqb (u_username u) (i_username i) || String.eqb (u_id u) id) eqn:X.
  - assert (existsb (fun u => String.eqb (u_username u) (i_username i) || String.eqb (u_id u) id) us = true); [|congruence].
    apply existsb_exists. exists u. auto.
  - apply orb_false_iff in X. destruct X as [A B]. apply String.eqb_neq in A. apply String.eqb_neq in B. auto.
Qed.
Lemma inv_reach : forall s, reach s -> inv s.
Proof.
  intros s R. induction R as [s (id & NE & HU & HP & HL)|s s' R IH S].
  - constructor; rewrite ?HU, ?HP, ?HL.
    + repeat constructor. intros [].
    + repeat constructor. intros [].
    + intros u v [<-|[]] [<-|[]]. cbn. congruence.
    + intros i p [].
    + intros u [<-|[]]. cbn. congruence.
    + exists id. now left.
    + intros u p [].
  - destruct IH as [I1 I2 I3 I4 I5 I6 I7]. destruct S as [s salt b i HC|s before i p after id us HP HF HFP HI|s before x after HP]; constructor; cbn [s_users s_pending s_log]; auto.
    + intros i' p' [E|H]; [|apply (I4 _ _ H)]. injection E as <- <-. unfold checks in HC.
      destruct (String.eqb_spec (trim (b_username b)) ""); [discriminate|]. destruct (String.eqb_spec (trim (b_password b)) ""); [discriminate|].
      destruct (hash salt (trim (b_password b))) as [h|] eqn:EH; [|discriminate]. destruct (get_user (s_users s) (trim (b_username b))) eqn:EG; [discriminate|].
      injection HC as <-. cbn. split; [intros u Hu; apply (get_none _ _ EG u Hu)|]. split; [assumption|]. split; [assumption|]. exists salt. exact EH.
    + destruct (insert_spec _ _ _ _ HI) as [-> HN]. rewrite map_app. cbn [map row u_username]. apply NoDup_snoc; [exact I1|].
      intros H. apply in_map_iff in H. destruct H as (u & E & Hu). destruct (HN u Hu). congruence.
    + destruct (insert_spec _ _ _ _ HI) as [-> HN]. rewrite map_app. cbn [map row u_id]. apply NoDup_snoc; [exact I2|].
      intros H. apply in_map_iff in H. destruct H as (u & E & Hu). destruct (HN u Hu). congruence.
    + destruct (insert_spec _ _ _ _ HI) as [-> HN].
      assert (HIp : In (i, p) (s_pending s)) by (rewrite HP; apply in_elt).
      intros u v Hu Hv. apply in_app_or in Hu, Hv. destruct Hu as [Hu|[<-|[]]], Hv as [Hv|[<-|[]]]; cbn [row u_username u_id].
      * apply I3; assumption.
      * apply (HF u Hu).
      * intros E. destruct (I4 _ _ HIp) as [N _]. apply (N v Hv). congruence.
      * apply (HFP _ _ HIp).
    + destruct (insert_spec _ _ _ _ HI) as [-> HN]. intros i' p' H.
      assert (H' : In (i', p') (s_pending s)). { rewrite HP. apply in_app_or in H. apply in_or_app. destruct H; [now left|right; now right]. }
      destruct (I4 _ _ H') as (N & M). split; [|exact M]. intros u Hu. apply in_app_or in Hu. destruct Hu as [Hu|[<-|[]]]; [apply N; exact Hu|].
      cbn. intros E. apply (HFP _ _ H'). congruence.
    + destruct (insert_spec _ _ _ _ HI) as [-> HN]. intros u Hu G. apply in_app_or in Hu. destruct Hu as [Hu|[<-|[]]].
      * destruct (I5 u Hu G) as (p' & A & B). exists p'. split; [now right|exact B].
      * exists p. split; [now left|]. assert (HIp : In (i, p) (s_pending s)) by (rewrite HP; apply in_elt). destruct (I4 _ _ HIp) as (_ & _ & N & M). split; [exact N|exact M].
    + destruct I6 as (g & G). exists g. destruct (insert_spec _ _ _ _ HI) as [-> _]. apply in_or_app. now left.
    + destruct (insert_spec _ _ _ _ HI) as [-> HN]. intros u p' [E|H].
      * injection E as <- <-. split; [apply in_or_app; right; now left|]. cbn. destruct I6 as (g & G). destruct (HN _ G) as [N _]. cbn in N. congruence.
      * destruct (I7 _ _ H) as [A B]. split; [apply in_or_app; now left|exact B].
    + intros i' p' H. apply (I4 i' p'). rewrite HP. apply in_app_or in H. apply in_or_app. destruct H; [now left|right; now right].
Qed.
Lemma nodup_inj : forall (A B : Type) (f : A -> B) l x y, NoDup (map f l) -> In x l -> In y l -> f x = f y -> x = y.
Proof.
  intros A B f l x y. induction l as [|a l IH]; [intros _ []|]. cbn [map]. intros N Hx Hy E. inversion N as [|? ? N1 N2]; subst.
  destruct Hx as [->|Hx], Hy as [->|Hy]; [reflexivity| | |exact (IH N2 Hx Hy E)]; exfalso; apply N1; [rewrite E|rewrite <- E]; apply in_map; assumption.
Qed.

(** ** One account per name and per id *)
(** In every state reached by any interleaving of requests to create users, a user is found under its name and under its id,
    in whatever order the store keeps its rows: no account can stand in for another. *)
Theorem C63_lookup_is_unambiguous : forall s us u, reach s -> Permutation us (s_users s) -> In u us ->
  get_user us (u_username u) = Some u /\ get_user us (u_id u) = Some u.
Proof.
  intros s us u R HP Hu. destruct (inv_reach s R) as [I1 I2 I3 _ _ _ _].
  assert (HuS : In u (s_users s)) by (apply (Permutation_in _ HP Hu)).
  split; unfold get_user.
  - destruct (find _ us) as [v|] eqn:F.
    + apply find_some in F. destruct F as [Hv E]. apply (Permutation_in _ HP) in Hv. apply orb_true_iff in E. destruct E as [E|E]; apply String.eqb_eq in E.
      * f_equal. exact (nodup_inj _ _ u_username _ _ _ I1 Hv HuS E).
      * exfalso. apply (I3 u v HuS Hv). congruence.
    + apply (find_none _ _ F) in Hu. cbn in Hu. rewrite String.eqb_refl in Hu. discriminate.
  - destruct (find _ us) as [v|] eqn:F.
    + apply find_some in F. destruct F as [Hv E]. apply (Permutation_in _ HP) in Hv. apply orb_true_iff in E. destruct E as [E|E]; apply String.eqb_eq in E.
      * exfalso. apply (I3 v u Hv HuS). congruence.
      * f_equal. exact (nodup_inj _ _ u_id _ _ _ I2 Hv HuS E).
    + apply (find_none _ _ F) in Hu. cbn in Hu. rewrite String.eqb_refl, orb_true_r in Hu. discriminate.
Qed.

(** ** Accounts are never changed or taken over *)
(** Creating users never changes an existing row, and a request that names an existing user (by name or by id) is refused. *)
Theorem C63_existing_accounts_are_safe : forall s s', reach s -> step s s' ->
  (exists new, s_users s' = s_users s ++ new /\ length new <= 1) /\
  forall salt b u, In u (s_users s) -> trim (b_username b) = u_username u \/ trim (b_username b) = u_id u -> checks salt (s_users s) b = None.
Proof.
  intros s s' R S. split.
  - destruct S as [s salt b i HC|s before i p after id us HP HF HFP HI|s before x after HP]; cbn [s_users].
    + exists []. rewrite app_nil_r. auto.
    + destruct (insert_spec _ _ _ _ HI) as [-> _]. eexists. split; [reflexivity|]. cbn. lia.
    + exists []. rewrite app_nil_r. auto.
  - intros salt b u Hu E. unfold checks. destruct (String.eqb _ _); [reflexivity|]. destruct (String.eqb _ _); [reflexivity|].
    destruct (hash salt _); [|reflexivity]. destruct (C63_lookup_is_unambiguous s (s_users s) u R (Permutation_refl _) Hu) as [L1 L2].
    destruct E as [->| ->]; [now rewrite L1|now rewrite L2].
Qed.

(** ** Only the password given at creation opens an account *)
(** bcrypt: a hash made from a password is matched by that password and no other; nothing matches the empty hash *)
Definition ideal : Prop :=
  (forall salt p h p', hash salt p = Some h -> (check p' h = true <-> p' = p)) /\ (forall p, check p "" = false).
(** If basic authentication is on and an endpoint sees the user name [n], then [n] is not the guest and the request carried
    the password that [n]'s creator chose (trimmed). *)
Theorem C63_only_with_the_password : forall s us allow c en specs web pick api q e q', ideal -> reach s -> Permutation us (s_users s) ->
  c_basic c = true -> Forall only_through_next web -> new_api check allow us c en specs web pick = Some api ->
  In (Ran e q') (fst (api q)) ->
  exists u p, In (u, p) (s_log s) /\ In u (s_users s) /\ u_username u <> "guest" /\ q_user q' = Some (u_username u) /\
    basic_credentials (hd "" (q_auth q')) = Some (Some (u_username u, p)).
Proof.
  intros s us allow c en specs web pick api q e q' [ID1 ID2] R HPm HB HW HA HI.
  destruct (C62_basic_auth_protects _ _ _ _ _ _ _ _ _ HB HW HA _ _ _ HI) as (u & pass & Hu & HQ & HC & HH).
  apply (Permutation_in _ HPm) in Hu. destruct (inv_reach s R) as [I1 _ _ _ I5 I6 _].
  assert (G : u_username u <> "guest").
  { intros E. destruct I6 as (g & G). assert (u = {| u_id := g; u_name := "Guest"; u_username := "guest"; u_hash := ""; u_disabled := true |}) as ->.
    { apply (nodup_inj _ _ u_username (s_users s)); auto. }
    cbn in HC. rewrite ID2 in HC. discriminate. }
  destruct (I5 u Hu G) as (p & HL & _ & salt & Hh). exists u, p. split; [exact HL|]. split; [exact Hu|]. split; [exact G|]. split; [exact HQ|].
  apply (ID1 _ _ _ _ Hh) in HC. now subst pass.
Qed.

(** ** And it does open it *)
Lemma split_colon_app : forall a b, ~ In ":"%char a -> split_colon (a ++ ":"%char :: b) = Some (a, b).
Proof.
  induction a as [|c a IH]; intros b N; [reflexivity|]. cbn [app split_colon]. destruct (Ascii.eqb_spec c ":") as [->|NE]; [exfalso; apply N; now left|].
  rewrite IH; [reflexivity|]. intros H. apply N. now right.
Qed.
(** RFC 7617: the header a client sends *)
Definition basic_header (u p : string) : string :=
  ("Basic " ++ string_of_list_ascii (b64_encode (list_ascii_of_string u ++ ":"%char :: list_ascii_of_string p)%list))%string.
Lemma substring_all : forall s, substring 0 (String.length s) s = s.
Proof. induction s as [|c s IH]; [reflexivity|]. cbn. now rewrite IH. Qed.
Lemma basic_header_read : forall u p, ~ In ":"%char (list_ascii_of_string u) -> basic_credentials (basic_header u p) = Some (Some (u, p)).
Proof.
  intros u p N. unfold basic_header, basic_credentials.
  set (e := b64_encode _). assert (EL : e <> []).
  { unfold e. intros E. pose proof (b64_length (list_ascii_of_string u ++ ":"%char :: list_ascii_of_string p)) as L. rewrite E, app_length in L. cbn in L. lia. }
  assert (LEN : Nat.ltb 6 (String.length ("Basic " ++ string_of_list_ascii e)%string) = true).
  { destruct e as [|x e']; [congruence|]. cbn. reflexivity. }
  rewrite LEN. replace (fold_eq _ _) with true by (destruct e as [|x e']; [congruence|]; reflexivity). cbn [andb].
  assert (D : drop 6 ("Basic " ++ string_of_list_ascii e)%string = string_of_list_ascii e).
  { unfold drop. cbn [String.append String.length Nat.sub substring]. rewrite Nat.sub_0_r. apply substring_all. }
  rewrite D, list_ascii_of_string_of_list_ascii. unfold e. rewrite b64_roundtrip, split_colon_app by exact N.
  now rewrite !string_of_list_ascii_of_string.
Qed.
(** An account created with a user name without a colon is opened by its (trimmed) name and (trimmed) password, on any
    endpoint, right after its creation and ever after. *)
Theorem C63_the_password_opens : forall s u p allow c en specs pick api rs r q, ideal -> reach s -> In (u, p) (s_log s) ->
  ~ In ":"%char (list_ascii_of_string (u_username u)) ->
  c_basic c = true -> c_key c = false -> c_cors c = false -> c_rate c = false ->
  new_api check allow (s_users s) c en specs [] pick = Some api -> routes en specs = Some rs ->
  q_auth q = [basic_header (u_username u) p] -> q_body q <= c_body c -> pick rs (set_user (u_username u) q) = Some r ->
  api q = ([Ran (r_endpoint r) (set_user (u_username u) q)], Answered (r_endpoint r)).
Proof.
  intros s u p allow c en specs pick api rs r q [ID1 ID2] R HL N HB HK HC HR HA HRS HQ HBL HP.
  destruct (inv_reach s R) as [I1 _ _ _ I5 _ I7]. destruct (I7 _ _ HL) as [Hu G].
  assert (S : exists salt, hash salt p = Some (u_hash u)).
  { clear - R HL I1. revert u p HL I1. induction R as [s (id & _ & _ & _ & E)|s s' R IH S]; intros u p HL I1; [rewrite E in HL; contradiction|].
    pose proof (inv_reach s R) as I. destruct S as [s salt b i X|s before i p' after id us HP HF HFP HI|s before x after HP]; cbn [s_log s_users] in *.
    - exact (IH _ _ HL (v_names s I)).
    - destruct HL as [E|HL]; [|exact (IH _ _ HL (v_names s I))]. injection E as <- <-. cbn [row u_hash].
      assert (HIp : In (i, p') (s_pending s)) by (rewrite HP; apply in_elt). destruct (v_pend s I _ _ HIp) as (_ & _ & _ & M). exact M.
    - exact (IH _ _ HL (v_names s I)). }
  destruct S as (salt & Hh).
  replace (set_user (u_username u) q) with (as_user c (u_username u) q) by (unfold as_user; now rewrite HB).
  eapply C62_credentials_pass with (pass := p); eauto; try congruence.
  - intros _. rewrite HQ. cbn [hd]. split; [apply basic_header_read; exact N|]. split.
    + apply (C63_lookup_is_unambiguous s (s_users s) u R (Permutation_refl _) Hu).
    + apply (ID1 _ _ _ _ Hh). reflexivity.
  - unfold as_user. now rewrite HB.
Qed.

(** ** The password is neither stored nor sent back *)
(** What the store keeps and what the client gets back depend on the password only through its hash. *)
Theorem C63_password_stays_secret : forall salt salt' us b b' i i' id,
  b_name b = b_name b' -> b_username b = b_username b' -> b_disabled b = b_disabled b' ->
  hash salt (trim (b_password b)) = hash salt' (trim (b_password b')) ->
  checks salt us b = Some i -> checks salt' us b' = Some i' ->
  row id i = row id i' /\ answer id i = answer id i' /\ a_password (answer id i) = "".
Proof.
  intros salt salt' us b b' i i' id E1 E2 E3 EH H H'. unfold checks in *. rewrite <- E2 in H'. destruct (String.eqb _ _); [discriminate|].
  destruct (String.eqb _ _); [discriminate|]. destruct (String.eqb _ _); [discriminate|]. rewrite <- EH in H'.
  destruct (hash salt _); [|discriminate]. destruct (get_user us _); [discriminate|]. injection H as <-. injection H' as <-.
  unfold row, answer. cbn. rewrite E1, E3. auto.
Qed.
End Accounts.
Print Assumptions C63_lookup_is_unambiguous.
Print Assumptions C63_existing_accounts_are_safe.
Print Assumptions C63_only_with_the_password.
Print Assumptions C63_the_password_opens.
Print Assumptions C63_password_stays_secret.

(* ------------------------------------------------------------------ *)
(** * A concrete case *)
Fixpoint ltrim (s : string) : string := match s with String " " s => ltrim s | _ => s end.
Definition toy_hash (salt p : string) : option string := Some ("#" ++ p)%string.
Lemma toy_ideal : ideal toy_hash toy_check.
Proof.
  split.
  - intros salt p h p' E. injection E as <-. unfold toy_check. split.
    + intros H. apply String.eqb_eq in H. cbn in H. congruence.
    + intros ->. apply String.eqb_refl.
  - intros p. reflexivity.
Qed.
Definition start : state := {| s_users := [{| u_id := "0"; u_name := "Guest"; u_username := "guest"; u_hash := ""; u_disabled := true |}]; s_pending := []; s_log := [] |}.
Lemma start_reach : reach ltrim toy_hash start.
Proof. apply R_start. exists "0". repeat split; congruence. Qed.
Definition created (b : body) (i : insertion) (id : string) : state :=
  {| s_users := s_users start ++ [row id i]; s_pending := []; s_log := [(row id i, ltrim (b_password b))] |}.
Lemma created_reach : forall b i id, checks ltrim toy_hash "" (s_users start) b = Some i -> id <> "guest" -> id <> "0" -> i_username i <> id ->
  reach ltrim toy_hash (created b i id).
Proof.
  intros b i id H N1 N2 N3. eapply R_step; [eapply R_step; [apply start_reach|eapply St_check; exact H]|].
  refine (St_insert ltrim toy_hash {| s_users := s_users start; s_pending := [(i, ltrim (b_password b))]; s_log := [] |} [] i (ltrim (b_password b)) [] id (s_users start ++ [row id i]) _ _ _ _); cbn [s_pending s_users s_log].
  - reflexivity.
  - intros u [<-|[]]. cbn. split; congruence.
  - intros i' p' [E|[]]. congruence.
  - unfold checks in H. destruct (String.eqb _ _); [discriminate|]. destruct (String.eqb _ _); [discriminate|]. cbn [toy_hash] in H.
    destruct (get_user _ _) eqn:G; [discriminate|]. injection H as <-. unfold insert, row. cbn [i_username existsb s_users start u_username u_id].
    pose proof (get_none _ _ G _ (or_introl eq_refl)) as [A B]. cbn in A, B.
    replace (String.eqb "guest" (ltrim (b_username b))) with false by (symmetry; apply String.eqb_neq; exact A).
    replace (String.eqb "0" id) with false by (symmetry; apply String.eqb_neq; congruence). reflexivity.
Qed.
Definition ann_body : body := {| b_name := "Ann"; b_username := "ann"; b_password := "s3cret"; b_disabled := false |}.
Definition ann_insertion : insertion := {| i_name := "Ann"; i_username := "ann"; i_hash := "#s3cret"; i_disabled := false |}.
Definition simple_conf : web_conf := {| c_cors := false; c_basic := true; c_key := false; c_key_value := ""; c_random := "r"; c_rate := false; c_body := 500; c_logger := true |}.
Example C63_nonvacuous :
  reach ltrim toy_hash (created ann_body ann_insertion "7") /\
  exists api : server, new_api toy_check (fun _ => true) (s_users (created ann_body ann_insertion "7")) simple_conf [] [] [] first_match = Some api /\
   snd (api (get "/jobs" [basic_header "ann" "s3cret"])) = Answered E_listJobs /\ snd (api (get "/jobs" [basic_header "ann" "x"])) = Status 401 /\
   snd (api (get "/jobs" [basic_header "guest" ""])) = Status 401 /\ snd (api (get "/jobs" [basic_header "7" "s3cret"])) = Status 401.
Proof.
  split; [apply created_reach; [reflexivity|congruence|congruence|cbn; congruence]|]. eexists. split; [reflexivity|]. vm_compute. repeat split; reflexivity.
Qed.

(** What one might also expect, and is false *)
(** A user created with a password that begins with a space cannot log in with it. *)
Definition spaced : body := {| b_name := ""; b_username := "bob"; b_password := " pw"; b_disabled := false |}.
Theorem C63_password_as_sent_refuted : exists i id s, checks ltrim toy_hash "" (s_users start) spaced = Some i /\ s = created spaced i id /\ reach ltrim toy_hash s /\
  forall allow c en specs web pick api q e q', c_basic c = true -> Forall only_through_next web -> new_api toy_check allow (s_users s) c en specs web pick = Some api ->
    basic_credentials (hd "" (q_auth q')) = Some (Some ("bob", b_password spaced)) -> ~ In (Ran e q') (fst (api q)).
Proof.
  exists {| i_name := ""; i_username := "bob"; i_hash := "#pw"; i_disabled := false |}, "7". eexists. split; [reflexivity|]. split; [reflexivity|].
  assert (R : reach ltrim toy_hash (created spaced {| i_name := ""; i_username := "bob"; i_hash := "#pw"; i_disabled := false |} "7"))
    by (apply created_reach; [reflexivity|congruence|congruence|cbn; congruence]).
  split; [exact R|]. intros allow c en specs web pick api q e q' HB HW HA HQ HI.
  destruct (C63_only_with_the_password _ _ _ _ _ _ _ _ _ _ _ _ _ _ _ toy_ideal R (Permutation_refl _) HB HW HA HI) as (u & p & HL & _ & _ & _ & HH).
  rewrite HQ in HH. cbn in HL. destruct HL as [E|[]]. injection E as <- <-. discriminate.
Qed.
Print Assumptions C63_password_as_sent_refuted.
(** A user name with a colon is accepted, but nobody can log in under it: the header is cut at the first colon. *)
Lemma cut_before_colon : forall l u p, split_colon l = Some (u, p) -> ~ In ":"%char u.
Proof.
  induction l as [|c l IH]; intros u p H; [discriminate|]. cbn in H. destruct (Ascii.eqb_spec c ":") as [->|NE]; [injection H as <- <-; intros []|].
  destruct (split_colon l) as [[a b]|]; [|discriminate]. injection H as <- <-. intros [E|E]; [congruence|]. exact (IH _ _ eq_refl E).
Qed.
Theorem C63_colon_in_name_refuted : forall check us allow c en specs web pick api q e q' n,
  c_basic c = true -> Forall only_through_next web -> new_api check allow us c en specs web pick = Some api ->
  In ":"%char (list_ascii_of_string n) -> In (Ran e q') (fst (api q)) -> q_user q' <> Some n.
Proof.
  intros check us allow c en specs web pick api q e q' n HB HW HA HN HI E.
  destruct (C62_basic_auth_protects _ _ _ _ _ _ _ _ _ HB HW HA _ _ _ HI) as (u & pass & Hu & HQ & HC & HH).
  rewrite HQ in E. assert (E0 : u_username u = n) by congruence. rewrite E0 in HH. clear E HQ E0. unfold basic_credentials in HH. destruct (_ && _); [|discriminate].
  destruct (b64_decode _) as [cred|]; [|discriminate]. destruct (split_colon cred) as [[a b]|] eqn:S; [|discriminate].
  injection HH as E1 E2. apply cut_before_colon in S. apply S. rewrite <- E1, list_ascii_of_string_of_list_ascii in HN. exact HN.
Qed.
Print Assumptions C63_colon_in_name_refuted.
(** A user created as disabled is stored as enabled, though the answer says disabled. *)
Theorem C63_disabled_is_not_stored_refuted : forall trim hash salt us b i id, checks trim hash salt us b = Some i -> b_disabled b = true ->
  u_disabled (row id i) = false /\ a_disabled (answer id i) = true.
Proof.
  intros trim hash salt us b i id H D. split; [reflexivity|]. unfold checks in H. destruct (String.eqb _ _); [discriminate|]. destruct (String.eqb _ _); [discriminate|].
  destruct (hash salt _); [|discriminate]. destruct (get_user _ _); [discriminate|]. injection H as <-. exact D.
Qed.
Print Assumptions C63_disabled_is_not_stored_refuted.
