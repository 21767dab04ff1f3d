(** C102: a scheduled job contains the document that was sent, and so does every job it makes.
    api.go:544-591 (POST /scheduled-jobs), 648-655 (GET /scheduled-jobs/:id), input/job.go:31-56 (shape), 135-172 (ToScheduledJob),
    job.go:59-81 (JSON), datastore/postgres (SchedRows.v, C99), internal/coordinator/handlers/schedule.go:108-142 ([instance], Scheduled.v).
    As Submitted.v. *)
From Verif Require Import Types Handlers Validate StateProofs Wire Rows Submitted.
From Verif Require Import Scheduled.
From Verif Require SchedRows.
Open Scope string_scope.
Open Scope list_scope.
Open Scope Z_scope.

(* ------------------------------------------------------------------ *)
(** * Model *)
(** input/job.go:54-56 *)
Definition in_schedule (j : json) : option string := strict ["cron"] j (fun g => d_str (g "cron")).
(** input/job.go:31-44: as a job's, without wait, with a schedule *)
Definition in_sched (depth : nat) (j : json) : option (ijob * option string) :=
  strict ["name"; "description"; "tags"; "tasks"; "inputs"; "secrets"; "output"; "defaults"; "webhooks"; "permissions"; "autoDelete"; "schedule"] j (fun g =>
  let? v1 := d_str (g "name") in let? v2 := d_str (g "description") in let? v3 := d_arr d_string (g "tags") in
  let? v4 := d_arr (in_task depth) (g "tasks") in let? v5 := d_map (g "inputs") in let? v6 := d_map (g "secrets") in
  let? v7 := d_str (g "output") in let? v8 := d_ptr in_defaults (g "defaults") in let? v9 := d_arr in_webhook (g "webhooks") in
  let? v10 := d_arr in_perm (g "permissions") in let? v11 := d_ptr in_autodelete (g "autoDelete") in let? v12 := d_ptr in_schedule (g "schedule") in
  Some (mkIJob v1 v2 v3 v4 v5 v6 v7 v8 v9 v10 v11 None, v12)).
(** input/job.go:135-172 and api.go:571-583 (who asked).  Without a schedule it does not get this far (validate: required). *)
Definition to_sdef (by_ : option user) (j : ijob) (cron : string) : sdef :=
  mkSDef (ij_name j) (ij_description j) cron (ij_inputs j) (map Validate.to_task (ij_tasks j)) by_
    (match ij_defaults j with Some d => Some (to_defaults d) | None => None end) (ij_autodelete j) (ij_webhooks j)
    (map Validate.to_perm (ij_permissions j)) (ij_tags j) (ij_secrets j) (ij_output j).
(** job.go:59-76 *)
Definition sched_list (s : SchedRows.sjob) : list (string * option json) :=
  let d := SchedRows.sr_def s in
  [("id", o_id (SchedRows.sr_id s)); ("name", o_str (sd_name d)); ("description", o_str (sd_description d)); ("cron", o_str (sd_cron d));
   ("state", Some (JStr (SchedRows.sstate_name (SchedRows.sr_state s)))); ("inputs", o_map (sd_inputs d)); ("tasks", a_arr enc_task (sd_tasks d));
   ("createdBy", o_ptr enc_user (sd_createdby d)); ("defaults", o_ptr enc_defaults (sd_defaults d)); ("autoDelete", o_ptr enc_autodelete (sd_autodelete d));
   ("webhooks", o_arr enc_webhook (sd_webhooks d)); ("permissions", o_arr enc_permission (sd_permissions d));
   ("createdAt", Some (JTime (SchedRows.sr_created s))); ("tags", o_arr j_string (sd_tags d)); ("secrets", o_map (sd_secrets d)); ("output", o_str (sd_output d))].
Definition enc_sched (s : SchedRows.sjob) : json := JObj (compact (sched_list s)).

(* ------------------------------------------------------------------ *)
(** * Proofs *)
(** the fields of [d] that come from the document *)
Record says (d : sdef) (ij : ijob) (cron : string) : Prop := mkSays {
  y_name : sd_name d = ij_name ij; y_desc : sd_description d = ij_description ij; y_cron : sd_cron d = cron; y_inputs : sd_inputs d = ij_inputs ij;
  y_tasks : sd_tasks d = map bare (map Validate.to_task (ij_tasks ij));
  y_defaults : sd_defaults d = match ij_defaults ij with Some d => Some (to_defaults d) | None => None end;
  y_autodelete : sd_autodelete d = ij_autodelete ij; y_webhooks : sd_webhooks d = ij_webhooks ij; y_tags : sd_tags d = ij_tags ij;
  y_secrets : sd_secrets d = ij_secrets ij; y_output : sd_output d = ij_output ij;
  y_perms : Forall2 same_named (map Validate.to_perm (ij_permissions ij)) (sd_permissions d) }.
Lemma ag_tasks depth w ts : proper w = true -> d_arr (in_task depth) (Some w) = Some ts -> forallb no_subjob_id ts = true ->
  ok w (a_arr enc_task (map bare (map Validate.to_task ts))).
Proof.
  intros Pw E' HP. rewrite bare_arr. destruct w; try discriminate E'; [left; constructor|]. pose proof (ag_all no_subjob_id _ _ _ (ag_task depth) ts Pw E' HP) as F.
  destruct ts as [|a ts]; [inversion F; subst; left; constructor|]. right. eexists. split; [reflexivity|]. constructor. rewrite map_map. exact F.
Qed.
Lemma ag_defptr w x : proper w = true -> d_ptr in_defaults (Some w) = Some x -> ok w (o_ptr enc_defaults (match x with Some d => Some (to_defaults d) | None => None end)).
Proof. intros Pw E. pose proof (ag_ptr any in_defaults _ w x ag_defaults Pw E) as K. destruct x; apply K; exact eq_refl || exact I. Qed.
Ltac every_field Y := match goal with
  | |- ok _ (a_arr enc_task _) => rewrite (y_tasks _ _ _ Y); eapply ag_tasks; [assumption|match goal with E : d_arr (in_task _) (Some _) = _ |- _ => exact E end|assumption]
  | |- ok _ (o_ptr enc_defaults _) => rewrite (y_defaults _ _ _ Y); apply ag_defptr; [assumption|given]
  | |- ok _ (o_arr enc_webhook _) => rewrite (y_webhooks _ _ _ Y); apply ag_hooks; [assumption|given]
  | |- ok _ (o_ptr enc_autodelete _) => rewrite (y_autodelete _ _ _ Y); apply ag_delptr; [assumption|given]
  | |- _ => rewrite ?(y_name _ _ _ Y), ?(y_desc _ _ _ Y), ?(y_inputs _ _ _ Y), ?(y_tags _ _ _ Y), ?(y_secrets _ _ _ Y), ?(y_output _ _ _ Y); basic end.
Lemma ag_sched depth doc ij c s cron : proper doc = true -> in_sched depth doc = Some (ij, c) -> forallb no_subjob_id (ij_tasks ij) = true ->
  says (SchedRows.sr_def s) ij cron -> within (without ["schedule"; "permissions"] doc) (enc_sched s).
Proof.
  intros Pv H HP Y. unfold in_sched in H. eapply strict_rest; [exact Pv|exact H|].
  intros o Ev k w Hin K Hk G Pw H'; clear Ev Pv H; rename H' into H; cbv beta in H; opens H; injection H as <- <-.
  cbn [In] in K; keys K G; try discriminate Hk; (split; [|apply assocj_in; reflexivity]);
  cbn [assocj sched_list String.eqb Ascii.eqb Bool.eqb]; every_field Y.
Qed.
Lemma ag_instance depth doc ij c d cron k t i : proper doc = true -> in_sched depth doc = Some (ij, c) -> forallb no_subjob_id (ij_tasks ij) = true ->
  says d ij cron -> within (without ["schedule"; "permissions"; "defaults"] doc) (enc_job (instance k t i d)).
Proof.
  intros Pv H HP Y. rewrite enc_job_list. unfold in_sched in H. eapply strict_rest; [exact Pv|exact H|].
  intros o Ev ky w Hin K Hk G Pw H'; clear Ev Pv H; rename H' into H; cbv beta in H; opens H; injection H as <- <-.
  cbn [In] in K; keys K G; try discriminate Hk; (split; [|apply assocj_in; reflexivity]);
  cbn [assocj job_list String.eqb Ascii.eqb Bool.eqb instance j_name j_description j_tags j_tasks j_inputs j_secrets j_output j_webhooks j_autodelete]; every_field Y.
Qed.
Lemma sched_decoded depth doc ij c : in_sched depth doc = Some (ij, c) -> Forall2 (fun a p => in_perm a = Some p) (list_of (fld doc "permissions")) (ij_permissions ij).
Proof.
  intro H. unfold in_sched in H. destruct doc; try discriminate H.
  - cbv beta in H. cbn [strict] in H. opens H. injection H as <- <-. cbn in *.
    repeat match goal with E : Some _ = Some _ |- _ => injection E as E; try subst end; constructor.
  - cbn [strict] in H. destruct (forallb _ _); [|discriminate H]. cbv beta in H. opens H. injection H as <- <-. cbn [ij_permissions fld].
    match goal with E : d_arr in_perm (get l "permissions") = Some ?y |- _ => rename E into EP end.
    destruct (get l "permissions") as [w|].
    + destruct w; try discriminate EP; cbn [list_of].
      * injection EP as <-. constructor.
      * exact (ag_perms _ _ EP _ eq_refl).
    + injection EP as <-. constructor.
Qed.
Lemma perms_kept l ips qs : Forall2 (fun a p => in_perm a = Some p) l ips -> Forall2 same_named (map Validate.to_perm ips) qs -> Forall2 perm_kept l (map enc_permission qs).
Proof.
  intros D SN. revert qs SN. induction D as [|a p l ips E _ IH]; intros qs SN; inversion SN; subst; [constructor|]. cbn [map]. constructor; [|now apply IH].
  exact (perm_read a p _ E H1).
Qed.
Lemma shown_sched_perms s : list_of (fld (enc_sched s) "permissions") = map enc_permission (sd_permissions (SchedRows.sr_def s)).
Proof. unfold enc_sched. rewrite fld_compact by reflexivity. cbn [assocj sched_list String.eqb Ascii.eqb Bool.eqb]. destruct (sd_permissions _); reflexivity. Qed.
Lemma sched_cron depth doc ij c : in_sched depth doc = Some (ij, Some c) -> text_of (fld (fld doc "schedule") "cron") = c.
Proof.
  intro H. unfold in_sched in H. destruct doc; try discriminate H.
  cbn [strict] in H. destruct (forallb _ _); [|discriminate H]. cbv beta in H. opens H. injection H as <- HC. cbn [fld].
  match goal with E : d_ptr in_schedule (get l "schedule") = Some ?y |- _ => rename E into ES; rewrite HC in ES end.
  destruct (get l "schedule") as [w|]; [|discriminate ES]. destruct w; try discriminate ES. cbn [d_ptr] in ES. unfold in_schedule in ES. cbn [strict] in ES.
  destruct (forallb _ _); [|discriminate ES].
  match type of ES with context [d_str (get ?m "cron")] => cbn [fld]; destruct (get m "cron") as [w|]; [|cbn in ES |- *; congruence]; destruct w; cbn in ES |- *; try discriminate ES; congruence end.
Qed.

Lemma means_same roles users p q : SchedRows.means users roles p q -> same_named p q.
Proof.
  intros [r x E _ E2|u x E E1 _ E2]; unfold same_named; cbn [pm_role pm_user]; rewrite E; [|rewrite E1; split; [reflexivity|]]; exists x; split; trivial.
Qed.
Lemma back_says s s' users roles by_ ij cron : SchedRows.sr_def s = to_sdef by_ ij cron -> SchedRows.comes_back users roles s s' -> says (SchedRows.sr_def s') ij cron.
Proof.
  intros Es [_ _ Bp Bt Br]. rewrite Es in Bp, Bt, Br. cbv zeta in Br. destruct Br as (R1 & R2 & R3 & R4 & R5 & R6 & R7 & R8 & R9 & R10).
  constructor; try assumption.
  change (sd_permissions (to_sdef by_ ij cron)) with (map Validate.to_perm (ij_permissions ij)) in Bp.
  clear - Bp. induction Bp as [|p q ps qs H _ IH]; constructor; [exact (means_same _ _ _ _ H)|exact IH].
Qed.

(** without its schedule the document is a job's *)
Lemma get_without ks o k : existsb (String.eqb k) ks = false -> get (filter (fun p => negb (existsb (String.eqb (fst p)) ks)) o) k = get o k.
Proof.
  intro H. induction o as [|[k' v] o IH]; [reflexivity|]. cbn [filter get fst]. destruct (existsb (String.eqb k') ks) eqn:E; cbn [negb get].
  - destruct (String.eqb_spec k' k) as [->|]; [congruence|exact IH].
  - destruct (String.eqb k' k); [reflexivity|exact IH].
Qed.
Lemma get_absent o k : (forall v, ~ In (k, v) o) -> get o k = None.
Proof.
  intro H. induction o as [|[k' v] o IH]; [reflexivity|]. cbn [get]. destruct (String.eqb_spec k' k) as [->|]; [destruct (H v); left; reflexivity|].
  apply IH. intros w K. apply (H w). right. exact K.
Qed.
Lemma in_sched_job depth doc ij c : in_sched depth doc = Some (ij, c) -> in_job depth (without ["schedule"] doc) = Some ij.
Proof.
  intro H. unfold in_sched in H. destruct doc; try discriminate H.
  - cbv beta in H. cbn [strict] in H. opens H. injection H as <- <-. unfold in_job. cbn [without strict]. cbv beta.
    repeat match goal with E : ?d = Some _ |- context [?d] => rewrite E end. reflexivity.
  - cbn [strict] in H. match type of H with (if ?b then _ else _) = _ => destruct b eqn:F; [|discriminate H] end.
    cbv beta in H. opens H. injection H as <- <-. unfold in_job. cbn [without strict].
    match goal with |- (if ?b then _ else _) = _ => replace b with true end.
    2:{ symmetry. rewrite forallb_forall in *. intros p K. apply filter_In in K as [K N]. specialize (F p K). apply negb_true_iff in N.
        apply existsb_exists in F as (x & Hx & Ex). apply String.eqb_eq in Ex. rewrite Ex in *. cbn [In] in Hx.
        repeat destruct Hx as [<-|Hx]; try reflexivity; try discriminate N. destruct Hx. }
    assert (W : get (filter (fun p => negb (existsb (String.eqb (fst p)) ["schedule"])) l) "wait" = None).
    { apply get_absent. intros v K. apply filter_In in K as [K _]. rewrite forallb_forall in F. specialize (F _ K). discriminate F. }
    cbv beta. rewrite W. rewrite !get_without by reflexivity.
    repeat match goal with E : ?d = Some _ |- context [?d] => rewrite E end. reflexivity.
Qed.
Lemma shown_context j : fld (enc_job j) "context" = enc_ctx (j_context j).
Proof. rewrite enc_job_list, fld_compact by reflexivity. reflexivity. Qed.
Lemma assocj_same ks f : existsb (String.eqb f) ks = false -> forall l l',
  Forall2 (fun p q : string * option json => fst p = fst q /\ (snd p = snd q \/ existsb (String.eqb (fst p)) ks = true)) l l' -> assocj l f = assocj l' f.
Proof.
  intros H l l' F. induction F as [|[k v] [k' v'] l l' [E D] _ IH]; [reflexivity|]. cbn [fst snd assocj] in *. subst k'.
  destruct (String.eqb_spec k f) as [->|]; [destruct D; congruence|exact IH].
Qed.

(* ------------------------------------------------------------------ *)
(** * C102 *)
Section Theorems.
Variable shut : smap -> smap.
Variable unshut : smap -> option smap.
Hypothesis shut_nil : shut [] = [].
Hypothesis unshut_shut : forall m, unshut (shut m) = Some m.
Hypothesis shut_keeps : forall m, m <> [] -> shut m <> [].
Variable users : list user.
Variable roles : list role.
Hypothesis user_ids : NoDup (map u_id users).
Hypothesis user_names : NoDup (map u_username users).
Hypothesis role_ids : NoDup (map ro_id roles).
Hypothesis role_slugs : NoDup (map ro_slug roles).

(** What the new record says is what the document says, and it is read back under its id. *)
Lemma created_back D l depth doc ij cron i t by_ D' :
  SchedRows.represents_scheds shut users roles D l -> in_sched depth doc = Some (ij, Some cron) ->
  (forall u, by_ = Some u -> In u users) ->
  SchedRows.create_sched shut users roles D (SchedRows.mkSJob i SActive t (to_sdef by_ ij cron)) = Some D' ->
  exists n0, forall n, (n0 <= n)%nat -> exists s', SchedRows.get_sched unshut users roles n D' i = Some s' /\ SchedRows.sr_id s' = i /\
    SchedRows.sr_state s' = SActive /\ says (SchedRows.sr_def s') ij cron.
Proof.
  intros R H HU C. set (s := SchedRows.mkSJob i SActive t (to_sdef by_ ij cron)) in *.
  destruct (SchedRows.C99_created shut users roles user_names role_slugs D l s R HU) as [CI CB].
  assert (CE : exists D', SchedRows.create_sched shut users roles D s = Some D') by (now exists D').
  apply CI in CE as (_ & NI & _). destruct (CB D' C) as (s' & B & R').
  destruct (SchedRows.C99_read shut unshut shut_nil unshut_shut shut_keeps users roles user_ids role_ids D' _ R') as [n0 N].
  exists n0. intros n L. exists s'. pose proof B as B'. destruct B' as [(B1 & B2 & _) _ _ _ _]. split.
  - rewrite (N n L i). clear - NI B1. change (SchedRows.sr_id s) with i in *. induction l as [|x l IH]; cbn [app find].
    + rewrite B1, N.eqb_refl. reflexivity.
    + destruct (N.eqb_spec (SchedRows.sr_id x) i) as [E|]; [destruct NI; left; exact E|]. apply IH. intro K. apply NI. right. exact K.
  - split; [exact B1|]. split; [exact B2|]. exact (back_says s s' users roles by_ ij cron eq_refl B).
Qed.

(** The answer to GET contains the document sent: every field that was given, nested ones included, the schedule and each permission. *)
Theorem C102_read_back : forall D l depth doc ij cron i t by_ D',
  SchedRows.represents_scheds shut users roles D l -> proper doc = true -> in_sched depth doc = Some (ij, Some cron) ->
  forallb no_subjob_id (ij_tasks ij) = true -> (forall u, by_ = Some u -> In u users) ->
  SchedRows.create_sched shut users roles D (SchedRows.mkSJob i SActive t (to_sdef by_ ij cron)) = Some D' ->
  exists n0, forall n, (n0 <= n)%nat -> exists s, SchedRows.get_sched unshut users roles n D' i = Some s /\
    within (without ["schedule"; "permissions"] doc) (enc_sched s) /\
    text_of (fld (enc_sched s) "cron") = text_of (fld (fld doc "schedule") "cron") /\
    text_of (fld (enc_sched s) "state") = "ACTIVE" /\
    Forall2 perm_kept (list_of (fld doc "permissions")) (list_of (fld (enc_sched s) "permissions")).
Proof.
  intros D l depth doc ij cron i t by_ D' R Pv H HP HU C. destruct (created_back _ _ _ _ _ _ _ _ _ _ R H HU C) as [n0 N].
  exists n0. intros n L. destruct (N n L) as (s & G & _ & St & Y). exists s. split; [exact G|]. split; [exact (ag_sched _ _ _ _ _ _ Pv H HP Y)|].
  split; [|split].
  - rewrite (sched_cron _ _ _ _ H). unfold enc_sched. rewrite fld_compact by reflexivity. cbn [assocj sched_list String.eqb Ascii.eqb Bool.eqb].
    rewrite text_o_str. exact (y_cron _ _ _ Y).
  - unfold enc_sched. rewrite fld_compact by reflexivity. cbn [assocj sched_list String.eqb Ascii.eqb Bool.eqb]. rewrite St. reflexivity.
  - rewrite shown_sched_perms. exact (perms_kept _ _ _ (sched_decoded _ _ _ _ H) (y_perms _ _ _ Y)).
Qed.

(** So does every job made at a tick, the defaults apart; it carries the schedule. *)
Theorem C102_instances_carry : forall D l depth doc ij cron i t by_ D',
  SchedRows.represents_scheds shut users roles D l -> proper doc = true -> in_sched depth doc = Some (ij, Some cron) ->
  forallb no_subjob_id (ij_tasks ij) = true -> (forall u, by_ = Some u -> In u users) ->
  SchedRows.create_sched shut users roles D (SchedRows.mkSJob i SActive t (to_sdef by_ ij cron)) = Some D' ->
  exists n0, forall n, (n0 <= n)%nat -> exists s, SchedRows.get_sched unshut users roles n D' i = Some s /\
    forall k now, let j := instance k now i (SchedRows.sr_def s) in
      within (without ["schedule"; "permissions"; "defaults"] doc) (enc_job j) /\
      text_of (fld (fld (enc_job j) "schedule") "cron") = text_of (fld (fld doc "schedule") "cron") /\
      Forall2 perm_kept (list_of (fld doc "permissions")) (list_of (fld (enc_job j) "permissions")).
Proof.
  intros D l depth doc ij cron i t by_ D' R Pv H HP HU C. destruct (created_back _ _ _ _ _ _ _ _ _ _ R H HU C) as [n0 N].
  exists n0. intros n L. destruct (N n L) as (s & G & _ & _ & Y). exists s. split; [exact G|]. intros k now j.
  split; [exact (ag_instance _ _ _ _ _ _ _ _ _ Pv H HP Y)|]. split.
  - rewrite (sched_cron _ _ _ _ H). rewrite enc_job_list, fld_compact by reflexivity. cbn [assocj job_list String.eqb Ascii.eqb Bool.eqb].
    change (o_ptr enc_schedule (j_schedule j)) with (Some (enc_schedule (mkSchedule i (sd_cron (SchedRows.sr_def s))))). unfold enc_schedule. rewrite fld_compact by reflexivity.
    cbn [assocj String.eqb Ascii.eqb Bool.eqb]. rewrite text_o_str. exact (y_cron _ _ _ Y).
  - rewrite shown_perms. exact (perms_kept _ _ _ (sched_decoded _ _ _ _ H) (y_perms _ _ _ Y)).
Qed.
(** Apart from defaults, schedule and context ([{{ job.id }}] and [{{ job.name }}] are missing there) it is the job that POST /jobs
    makes of the document without its schedule (permissions and creator: above and C99). *)
Theorem C102_same_as_submitted : forall D l depth doc ij cron i t by_ D',
  SchedRows.represents_scheds shut users roles D l -> in_sched depth doc = Some (ij, Some cron) -> (forall u, by_ = Some u -> In u users) ->
  SchedRows.create_sched shut users roles D (SchedRows.mkSJob i SActive t (to_sdef by_ ij cron)) = Some D' ->
  in_job depth (without ["schedule"] doc) = Some ij /\
  exists n0, forall n, (n0 <= n)%nat -> exists s, SchedRows.get_sched unshut users roles n D' i = Some s /\
    forall k now cj, let a := enc_job (instance k now i (SchedRows.sr_def s)) in let b := enc_job (stored_job (new_job k now (to_def cj by_ ij))) in
      (forall f, existsb (String.eqb f) ["schedule"; "defaults"; "permissions"; "createdBy"; "context"] = false -> fld a f = fld b f) /\
      fld (fld a "context") "inputs" = fld (fld b "context") "inputs" /\ fld (fld a "context") "secrets" = fld (fld b "context") "secrets" /\
      fld (fld a "context") "job" = JNull.
Proof.
  intros D l depth doc ij cron i t by_ D' R H HU C. split; [exact (in_sched_job _ _ _ _ H)|].
  destruct (created_back _ _ _ _ _ _ _ _ _ _ R H HU C) as [n0 N]. exists n0. intros n L. destruct (N n L) as (s & G & _ & _ & Y).
  exists s. split; [exact G|]. intros k now cj a b. destruct Y as [Y1 Y2 Y3 Y4 Y5 Y6 Y7 Y8 Y9 Y10 Y11 Y12].
  split; [|split; [|split]].
  - intros f Hf. subst a b. rewrite !enc_job_list, !fld_compact by reflexivity.
    rewrite (assocj_same _ f Hf (job_list (instance k now i (SchedRows.sr_def s))) (job_list (stored_job (new_job k now (to_def cj by_ ij))))); [reflexivity|].
    unfold job_list. repeat apply Forall2_cons; try apply Forall2_nil; cbn [fst snd]; (split; [reflexivity|]); try (right; reflexivity); left; try reflexivity.
    + change (o_str (sd_name (SchedRows.sr_def s)) = o_str (ij_name ij)). now rewrite Y1.
    + change (o_str (sd_description (SchedRows.sr_def s)) = o_str (ij_description ij)). now rewrite Y2.
    + change (o_arr j_string (sd_tags (SchedRows.sr_def s)) = o_arr j_string (ij_tags ij)). now rewrite Y9.
    + change (a_arr enc_task (sd_tasks (SchedRows.sr_def s)) = a_arr enc_task (map bare (map Validate.to_task (ij_tasks ij)))). now rewrite Y5.
    + change (o_map (sd_inputs (SchedRows.sr_def s)) = o_map (ij_inputs ij)). now rewrite Y4.
    + change (o_int (Z.of_nat (List.length (sd_tasks (SchedRows.sr_def s)))) = o_int (Z.of_nat (List.length (map Validate.to_task (ij_tasks ij))))). now rewrite Y5, map_length.
    + change (o_str (sd_output (SchedRows.sr_def s)) = o_str (ij_output ij)). now rewrite Y11.
    + change (o_arr enc_webhook (sd_webhooks (SchedRows.sr_def s)) = o_arr enc_webhook (ij_webhooks ij)). now rewrite Y8.
    + change (o_ptr enc_autodelete (sd_autodelete (SchedRows.sr_def s)) = o_ptr enc_autodelete (ij_autodelete ij)). now rewrite Y7.
    + change (o_map (sd_secrets (SchedRows.sr_def s)) = o_map (ij_secrets ij)). now rewrite Y10.
  - subst a b. rewrite !shown_context. change (fld (enc_ctx (mkCtx [] (sd_inputs (SchedRows.sr_def s)) (sd_secrets (SchedRows.sr_def s)) [])) "inputs" = fld (enc_ctx (mkCtx cj (ij_inputs ij) (ij_secrets ij) [])) "inputs").
    unfold enc_ctx. rewrite !fld_compact by reflexivity. cbn [assocj String.eqb Ascii.eqb Bool.eqb c_inputs]. now rewrite Y4.
  - subst a b. rewrite !shown_context. change (fld (enc_ctx (mkCtx [] (sd_inputs (SchedRows.sr_def s)) (sd_secrets (SchedRows.sr_def s)) [])) "secrets" = fld (enc_ctx (mkCtx cj (ij_inputs ij) (ij_secrets ij) [])) "secrets").
    unfold enc_ctx. rewrite !fld_compact by reflexivity. cbn [assocj String.eqb Ascii.eqb Bool.eqb c_secrets]. now rewrite Y10.
  - subst a b. rewrite !shown_context. change (fld (enc_ctx (mkCtx [] (sd_inputs (SchedRows.sr_def s)) (sd_secrets (SchedRows.sr_def s)) [])) "job" = JNull).
    unfold enc_ctx. rewrite fld_compact by reflexivity. reflexivity.
Qed.
End Theorems.

(** Non-vacuity: a nightly build with nested tasks, defaults, secrets and permissions is accepted, stored and read back. *)
Definition ex_sched : json := JObj
  [("name", JStr "build"); ("description", JNull); ("tags", JArr [JStr "nightly"; JStr "x"]); ("output", JStr "{{ tasks.a }}");
   ("inputs", JObj [("branch", JStr "main")]); ("secrets", JObj [("token", JStr "s3cret")]);
   ("defaults", JObj [("retry", JObj [("limit", JNum 2)]); ("timeout", JStr "5m"); ("priority", JNum 3)]);
   ("webhooks", JArr [JObj [("url", JStr "http://x"); ("headers", JObj [("h", JStr "v")])]]);
   ("permissions", JArr [JObj [("role", JStr "ops")]; JObj [("user", JStr "ann"); ("role", JStr "")]]);
   ("schedule", JObj [("cron", JStr "0 3 * * *")]);
   ("tasks", JArr
     [JObj [("name", JStr "a"); ("image", JStr "alpine"); ("run", JStr "echo hi"); ("env", JObj [("K", JStr "v")]); ("var", JStr "a")];
      JObj [("name", JStr "p"); ("parallel", JObj [("tasks", JArr [JObj [("name", JStr "q"); ("image", JStr "i"); ("run", JStr "r")]])])]])].
Definition ex_by : option user := Some SchedRows.zz_ann.
Example C102_example : exists ij D' s,
  proper ex_sched = true /\ in_sched 3 ex_sched = Some (ij, Some "0 3 * * *") /\ forallb no_subjob_id (ij_tasks ij) = true /\
  In SchedRows.zz_ann SchedRows.zz_users /\
  SchedRows.represents_scheds SchedRows.zz_keep SchedRows.zz_users [SchedRows.zz_ops] (SchedRows.mkSDb [] []) [] /\
  SchedRows.create_sched SchedRows.zz_keep SchedRows.zz_users [SchedRows.zz_ops] (SchedRows.mkSDb [] []) (SchedRows.mkSJob 5%N SActive 100 (to_sdef ex_by ij "0 3 * * *")) = Some D' /\
  SchedRows.get_sched Some SchedRows.zz_users [SchedRows.zz_ops] 9 D' 5%N = Some s /\
  map (fun v => text_of (fld (fld v "role") "slug")) (list_of (fld (enc_sched s) "permissions")) = ["ops"; ""] /\
  map (fun v => text_of (fld v "name")) (list_of (fld (enc_job (instance 8%N 200 5%N (SchedRows.sr_def s))) "tasks")) = ["a"; "p"] /\
  fld (enc_job (instance 8%N 200 5%N (SchedRows.sr_def s))) "inputs" = JObj [("branch", JStr "main")] /\
  in_sched 3 (JObj [("name", JStr "x"); ("wait", JObj [("timeout", JStr "1s")])]) = None.
Proof.
  destruct (in_sched 3 ex_sched) as [[ij oc]|] eqn:E; [|vm_compute in E; discriminate E]. vm_compute in E. injection E as <- <-.
  do 3 eexists. split; [vm_compute; reflexivity|]. split; [reflexivity|]. split; [vm_compute; reflexivity|].
  split; [right; left; reflexivity|]. split; [exact (proj1 SchedRows.C99_nonvacuous)|].
  split; [vm_compute; reflexivity|]. split; [vm_compute; reflexivity|]. split; [vm_compute; reflexivity|]. split; [vm_compute; reflexivity|].
  split; vm_compute; reflexivity.
Qed.

(** The defaults do not reach the jobs made: of this document, a limit of two retries per task. *)
Theorem C102_defaults_refuted : ~ (forall depth doc ij cron by_ k now i, proper doc = true -> in_sched depth doc = Some (ij, Some cron) ->
  within (fld doc "defaults") (fld (enc_job (instance k now i (to_sdef by_ ij cron))) "defaults")).
Proof.
  intro H. destruct (in_sched 3 ex_sched) as [[ij oc]|] eqn:E; [|vm_compute in E; discriminate E].
  assert (EC : oc = Some "0 3 * * *") by (vm_compute in E; injection E as _ <-; reflexivity). subst oc.
  specialize (H 3%nat ex_sched ij _ None 8%N 200 5%N eq_refl E). rewrite enc_job_list, fld_compact in H by reflexivity.
  change (match assocj (job_list (instance 8%N 200 5%N (to_sdef None ij "0 3 * * *"))) "defaults" with Some v => v | None => JNull end) with JNull in H.
  vm_compute in H. inversion H.
Qed.
Print Assumptions C102_read_back.
Print Assumptions C102_instances_carry.
Print Assumptions C102_defaults_refuted.
Print Assumptions C102_same_as_submitted.
