(** C81: sidecars are ready before the task starts; where the readiness requests go; the task's private network.
    runtime/docker/docker.go:209-254 (doRun), 278-307 (removeNetwork), runtime/docker/tcontainer.go:226-241 (Start), 331-428
    (probeContainer).  What happens to each container (created or not, started or not, the port it was given, the answers to
    the requests, the end of the waiting time) is arbitrary.  The removal of the containers is in Runtime.v.
    Simplification: the waiting time is the position of [PDone] among the answers. *)
From Coq Require Import List Ascii String Bool Lia ZArith DecimalString DecimalPos DecimalN.
From Verif Require Import Types Runtime Container.
Import ListNotations.
Local Open Scope list_scope.
Local Open Scope Z_scope.

(* ------------------------------------------------------------------ *)
(** * Model *)
(** the answer to a request, if any; or the end of the waiting time *)
Inductive pevent := PDone | PAnswer (code : option Z).
Record fate := mkFate {
  f_created : bool; f_started : bool;
  f_port : option Z;             (* the host port, if the container can be inspected and has one *)
  f_timeout_ok : bool;           (* the time limit is a duration *)
  f_logs : bool;
  f_events : list pevent }.
(** what a run does: containers (by number, 0 is the task itself) created and started, requests sent *)
Inductive sop := Created (i : nat) | Started (i : nat) | Get (i : nat) (url : string) (code : option Z).
Definition decimal (n : Z) : string := NilZero.string_of_uint (N.to_uint (Z.to_N n)).
(** tcontainer.go:360 *)
Definition probe_url (port : Z) (path : string) : string := ("http://localhost:" ++ decimal port ++ path)%string.
(** tcontainer.go:405-427 *)
Fixpoint probing (i : nat) (url : string) (evs : list pevent) : list sop * bool :=
  match evs with
  | [] => ([], false)
  | PDone :: _ => ([], false)
  | PAnswer code :: r =>
      let '(tr, ok) := match code with Some 200 => ([], true) | _ => probing i url r end in
      (Get i url code :: tr, ok)
  end.
(** tcontainer.go:331-428 *)
Definition probe_container (i : nat) (t : task) (f : fate) : list sop * bool :=
  match t_probe t with
  | None => ([], true)
  | Some p =>
      let path := if String.eqb (pb_path p) "" then "/"%string else pb_path p in
      match f_port f with
      | None => ([], false)
      | Some port => if (f_timeout_ok f && f_logs f)%bool then probing i (probe_url port path) (f_events f) else ([], false)
      end
  end.
(** tcontainer.go:226-241 *)
Definition start (i : nat) (t : task) (f : fate) : list sop * bool :=
  if f_started f then let '(tr, ok) := probe_container i t f in (Started i :: tr, ok) else ([], false).
(** docker.go:224-243 *)
Fixpoint sidecars (fates : nat -> fate) (i : nat) (l : list task) : list sop * bool :=
  match l with
  | [] => ([], true)
  | s :: r =>
      if f_created (fates i) then
        let '(tr, ok) := start i s (fates i) in
        if ok then let '(tr', ok') := sidecars fates (S i) r in (Created i :: tr ++ tr', ok') else (Created i :: tr, false)
      else ([], false)
  end.
(** docker.go:209-254 up to waiting for the task *)
Definition run_with (fates : nat -> fate) (t : task) : list sop * bool :=
  if f_created (fates 0%nat) then
    let '(tr, ok) := sidecars fates 1 (t_sidecars t) in
    if ok then let '(tr', ok') := start 0 t (fates 0%nat) in (Created 0 :: tr ++ tr', ok') else (Created 0 :: tr, false)
  else ([], false).
(** docker.go:278-307: the answers of the engine to the attempts; the result: attempts made, removed or not *)
Fixpoint remove_network (tries : nat) (answers : nat -> bool) (k : nat) : nat * bool :=
  match tries with
  | O => (O, false)
  | S n => if answers k then (1%nat, true) else let '(m, ok) := remove_network n answers (S k) in (S m, ok)
  end.
Definition remove (answers : nat -> bool) := remove_network 5 answers 0.

(* ------------------------------------------------------------------ *)
(** * Specification *)
(** the host and port a URL "http://..." addresses: up to the first "/", "?" or "#", after the last "@" *)
Fixpoint authority (s : string) : string :=
  match s with
  | EmptyString => EmptyString
  | String c r => if (Ascii.eqb c "/" || Ascii.eqb c "?" || Ascii.eqb c "#")%bool then EmptyString else String c (authority r)
  end.
Fixpoint after_at (s : string) : option string :=
  match s with
  | EmptyString => None
  | String c r => match after_at r with
                  | Some x => Some x
                  | None => if Ascii.eqb c "@" then Some r else None
                  end
  end.
Definition addressed (url : string) : string :=
  let a := authority (String.substring 7 (String.length url - 7) url) in
  match after_at a with Some x => x | None => a end.
(** the path requested by default *)
Definition probe_path (p : probe) : string := if String.eqb (pb_path p) "" then "/"%string else pb_path p.

(* ------------------------------------------------------------------ *)
(** * Proofs *)
Lemma probing_ok i url evs tr : probing i url evs = (tr, true) ->
  exists codes, tr = map (Get i url) codes ++ [Get i url (Some 200)] /\ Forall (fun c => c <> Some 200) codes.
Proof.
  revert tr. induction evs as [|[|code] evs IH]; intros tr H; [discriminate|discriminate|]. cbn in H.
  assert (D : code = Some 200 \/ code <> Some 200).
  { destruct code as [c|]; [|right; discriminate]. destruct (Z.eq_dec c 200) as [->|N]; [left; reflexivity|right; congruence]. }
  destruct D as [->|N].
  - injection H as <-. exists []. split; [reflexivity|constructor].
  - assert (E : (match code with Some 200 => ([], true) | _ => probing i url evs end) = probing i url evs).
    { clear H. destruct code as [c|]; [|reflexivity]. destruct (Z.eq_dec c 200) as [->|Nc]; [contradiction|].
      destruct c as [|p|p]; try reflexivity. do 8 (destruct p as [p|p|]; try reflexivity). contradiction. }
    rewrite E in H. destruct (probing i url evs) as [tr1 ok1]. injection H as <- ->. destruct (IH tr1 eq_refl) as (codes & -> & F).
    exists (code :: codes). split; [reflexivity|]. constructor; assumption.
Qed.
Lemma probing_events i url evs tr : probing i url evs = (tr, true) -> exists x y, evs = x ++ PAnswer (Some 200) :: y /\ ~ In PDone x.
Proof.
  revert tr. induction evs as [|[|code] evs IH]; intros tr H; [discriminate|discriminate|]. cbn in H.
  destruct (match code with Some 200 => ([], true) | _ => probing i url evs end) as [tr1 ok1] eqn:E. injection H as <- ->.
  assert (A : probing i url evs = (tr1, true) -> exists x y, PAnswer code :: evs = x ++ PAnswer (Some 200) :: y /\ ~ In PDone x).
  { intros G. destruct (IH tr1 G) as (x & y & -> & N). exists (PAnswer code :: x), y. split; [reflexivity|]. intros [D|D]; [discriminate|exact (N D)]. }
  destruct code as [c|]; [|exact (A E)]. destruct c as [|q|q]; try exact (A E).
  do 8 (destruct q as [q|q|]; try exact (A E)). exists [], evs. split; [reflexivity|intros []].
Qed.
Lemma probing_ops i url evs o : In o (fst (probing i url evs)) -> exists code, o = Get i url code.
Proof.
  induction evs as [|[|code] evs IH]; [intros []|intros []|]. cbn.
  destruct (match code with Some 200 => ([], true) | _ => probing i url evs end) as [tr ok] eqn:E. cbn.
  intros [<-|H]; [eexists; reflexivity|].
  destruct code as [c|]; [|rewrite E in IH; exact (IH H)].
  destruct c as [|p|p]; try (rewrite E in IH; exact (IH H)).
  do 8 (destruct p as [p|p|]; try (rewrite E in IH; exact (IH H))). injection E as <- <-. destruct H.
Qed.
Lemma start_ops i t f o : In o (fst (start i t f)) -> o = Started i \/ exists url code, o = Get i url code.
Proof.
  unfold start, probe_container. destruct (f_started f); [|intros []]. destruct (t_probe t) as [p|]; [|intros [<-|[]]; left; reflexivity].
  destruct (f_port f) as [port|]; [|intros [<-|[]]; left; reflexivity].
  destruct (f_timeout_ok f && f_logs f)%bool; [|intros [<-|[]]; left; reflexivity].
  match goal with |- context [probing ?a ?b ?c] => pose proof (probing_ops a b c) as G; destruct (probing a b c) as [tr ok] end.
  cbn in *. intros [<-|H]; [left; reflexivity|right]. destruct (G o H) as (c & ->). eexists. eexists. reflexivity.
Qed.
Lemma sidecars_ops fates l : forall i o, In o (fst (sidecars fates i l)) ->
  (exists j, (i <= j)%nat /\ (o = Created j \/ o = Started j \/ exists url code, o = Get j url code)).
Proof.
  induction l as [|s l IH]; intros i o; [intros []|]. cbn [sidecars]. destruct (f_created (fates i)); [|intros []].
  pose proof (start_ops i s (fates i)) as So. destruct (start i s (fates i)) as [tr ok]. cbn [fst] in So.
  assert (A : In o tr -> exists j, (i <= j)%nat /\ (o = Created j \/ o = Started j \/ exists url code, o = Get j url code)).
  { intros H. exists i. split; [lia|]. right. exact (So o H). }
  destruct ok.
  - specialize (IH (S i)). destruct (sidecars fates (S i) l) as [tr' ok']. cbn [fst] in *. intros [<-|H].
    + exists i. split; [lia|]. left. reflexivity.
    + apply in_app_iff in H as [H|H]; [exact (A H)|]. destruct (IH o H) as (j & Hj & G). exists j. split; [lia|exact G].
  - cbn [fst]. intros [<-|H]; [exists i; split; [lia|left; reflexivity]|exact (A H)].
Qed.
Lemma sidecars_ready fates l : forall i tr k s, sidecars fates i l = (tr, true) -> nth_error l k = Some s ->
  In (Created (i + k)) tr /\ In (Started (i + k)) tr /\
  forall p, t_probe s = Some p -> exists port before after, f_port (fates (i + k)%nat) = Some port /\
    tr = before ++ Get (i + k) (probe_url port (probe_path p)) (Some 200) :: after.
Proof.
  induction l as [|s0 l IH]; intros i tr k s H E; [destruct k; discriminate|]. cbn [sidecars] in H.
  destruct (f_created (fates i)); [|discriminate]. destruct (start i s0 (fates i)) as [tr1 ok1] eqn:Es.
  destruct ok1; [|discriminate]. destruct (sidecars fates (S i) l) as [tr2 ok2] eqn:El. injection H as <- ->.
  destruct k as [|k].
  - cbn in E. injection E as ->. rewrite Nat.add_0_r. unfold start in Es. destruct (f_started (fates i)); [|discriminate].
    destruct (probe_container i s (fates i)) as [trp okp] eqn:Ep. injection Es as <- ->.
    split; [left; reflexivity|]. split; [right; left; reflexivity|]. intros p Hp. unfold probe_container in Ep. rewrite Hp in Ep.
    destruct (f_port (fates i)) as [port|]; [|discriminate]. destruct (f_timeout_ok (fates i) && f_logs (fates i))%bool; [|discriminate].
    destruct (probing_ok _ _ _ _ Ep) as (codes & -> & _). fold (probe_path p).
    exists port, (Created i :: Started i :: map (Get i (probe_url port (probe_path p))) codes), tr2.
    split; [reflexivity|]. cbn. rewrite <- app_assoc. reflexivity.
  - cbn in E. destruct (IH (S i) tr2 k s El E) as (A & B & C). replace (i + S k)%nat with (S i + k)%nat by lia.
    split; [right; apply in_app_iff; right; exact A|]. split; [right; apply in_app_iff; right; exact B|].
    intros p Hp. destruct (C p Hp) as (port & b & a & F & ->). exists port, (Created i :: tr1 ++ b), a. split; [exact F|].
    cbn. rewrite <- app_assoc. reflexivity.
Qed.

(** C81: when the task's own container starts, every sidecar has been started and, if it has a probe, has answered it with 200. *)
Theorem C81_ready : forall fates t before after, fst (run_with fates t) = before ++ Started 0 :: after ->
  forall k s, nth_error (t_sidecars t) k = Some s ->
  In (Started (S k)) before /\
  forall p, t_probe s = Some p -> exists port, f_port (fates (S k)) = Some port /\ In (Get (S k) (probe_url port (probe_path p)) (Some 200)) before.
Proof.
  intros fates t before after H k s E. unfold run_with in H. destruct (f_created (fates 0%nat)); [|destruct before; discriminate].
  destruct (sidecars fates 1 (t_sidecars t)) as [tr ok] eqn:Es.
  assert (N : ~ In (Started 0) (Created 0 :: tr)).
  { intros [C|C]; [discriminate|]. pose proof (sidecars_ops fates (t_sidecars t) 1%nat (Started 0)) as G. rewrite Es in G. cbn [fst] in G.
    destruct (G C) as (j & Hj & [D|[D|(u & c & D)]]); try discriminate. injection D as <-. lia. }
  destruct ok.
  - destruct (start 0 t (fates 0%nat)) as [tr' ok']. cbn [fst] in H. change (Created 0 :: tr ++ tr') with ((Created 0 :: tr) ++ tr') in H.
    assert (Hb : exists x, before = (Created 0 :: tr) ++ x).
    { clear -H N. revert before H. generalize dependent (Created 0 :: tr). induction l as [|o l IH]; intros N before H; [exists before; reflexivity|].
      destruct before as [|o' before]; cbn in H; injection H as Eo H.
      - exfalso. apply N. left. exact Eo.
      - subst o'. destruct (IH (fun G => N (or_intror G)) before H) as (x & ->). exists x. reflexivity. }
    destruct Hb as (x & ->). destruct (sidecars_ready _ _ _ _ _ _ Es E) as (_ & B & C). change (1 + k)%nat with (S k) in *.
    split; [apply in_app_iff; left; right; exact B|]. intros p Hp. destruct (C p Hp) as (port & b & a & F & ->).
    exists port. split; [exact F|]. apply in_app_iff. left. right. apply in_app_iff. right. left. reflexivity.
  - exfalso. cbn [fst] in H. apply N. rewrite H. apply in_app_iff. right. left. reflexivity.
Qed.
Print Assumptions C81_ready.

(** C81: a sidecar is asked until it first answers 200, and not after. *)
Theorem C81_asked_until_ready : forall i t f tr p port, start i t f = (tr, true) -> t_probe t = Some p -> f_port f = Some port ->
  exists codes, tr = Started i :: map (Get i (probe_url port (probe_path p))) codes ++ [Get i (probe_url port (probe_path p)) (Some 200)] /\
    Forall (fun c => c <> Some 200) codes.
Proof.
  intros i t f tr p port H Hp Hf. unfold start in H. destruct (f_started f); [|discriminate].
  destruct (probe_container i t f) as [trp ok] eqn:E. injection H as <- ->. unfold probe_container in E. rewrite Hp, Hf in E.
  destruct (f_timeout_ok f && f_logs f)%bool; [|discriminate]. destruct (probing_ok _ _ _ _ E) as (codes & -> & F).
  exists codes. split; [reflexivity|exact F].
Qed.
Print Assumptions C81_asked_until_ready.

Lemma sidecars_in_time fates l : forall i tr k s p, sidecars fates i l = (tr, true) -> nth_error l k = Some s -> t_probe s = Some p ->
  exists x y, f_events (fates (i + k)%nat) = x ++ PAnswer (Some 200) :: y /\ ~ In PDone x.
Proof.
  induction l as [|s0 l IH]; intros i tr k s p H E Hp; [destruct k; discriminate|]. cbn [sidecars] in H.
  destruct (f_created (fates i)); [|discriminate]. destruct (start i s0 (fates i)) as [tr1 ok1] eqn:Es.
  destruct ok1; [|discriminate]. destruct (sidecars fates (S i) l) as [tr2 ok2] eqn:El. injection H as <- ->.
  destruct k as [|k].
  - cbn in E. injection E as ->. rewrite Nat.add_0_r. unfold start in Es. destruct (f_started (fates i)); [|discriminate].
    destruct (probe_container i s (fates i)) as [trp okp] eqn:Ep. injection Es as <- ->. unfold probe_container in Ep. rewrite Hp in Ep.
    destruct (f_port (fates i)) as [port|]; [|discriminate]. destruct (f_timeout_ok (fates i) && f_logs (fates i))%bool; [|discriminate].
    exact (probing_events _ _ _ _ Ep).
  - cbn in E. replace (i + S k)%nat with (S i + k)%nat by lia. exact (IH (S i) tr2 k s p El E Hp).
Qed.
(** C81: a sidecar that does not answer 200 in time fails the run: the task's container is never started. *)
Theorem C81_not_ready : forall fates t k s p, nth_error (t_sidecars t) k = Some s -> t_probe s = Some p ->
  (forall before after, f_events (fates (S k)) = before ++ PAnswer (Some 200) :: after -> In PDone before) ->
  ~ In (Started 0) (fst (run_with fates t)) /\ snd (run_with fates t) = false.
Proof.
  intros fates t k s p E Hp Hd. unfold run_with. destruct (f_created (fates 0%nat)); [|split; [intros []|reflexivity]].
  destruct (sidecars fates 1 (t_sidecars t)) as [tr ok] eqn:Es. destruct ok.
  - exfalso. destruct (sidecars_in_time _ _ _ _ _ _ _ Es E Hp) as (x & y & Ev & N). exact (N (Hd x y Ev)).
  - split; [|reflexivity]. intros [C|C]; [discriminate|].
    pose proof (sidecars_ops fates (t_sidecars t) 1%nat (Started 0)) as G. rewrite Es in G. cbn [fst] in G.
    destruct (G C) as (j & Hj & [D|[D|(u & c & D)]]); try discriminate. injection D as <-. lia.
Qed.
Print Assumptions C81_not_ready.

(* ------------------------------------------------------------------ *)
(** ** where the requests go *)
Definition plain_char (c : ascii) : Prop := c <> "/"%char /\ c <> "?"%char /\ c <> "#"%char /\ c <> "@"%char.
Lemma uint_plain u : Forall plain_char (list_ascii_of_string (NilEmpty.string_of_uint u)).
Proof. induction u; cbn; constructor; try exact IHu; repeat split; discriminate. Qed.
Lemma decimal_plain n : Forall plain_char (list_ascii_of_string (decimal n)).
Proof.
  unfold decimal, NilZero.string_of_uint. destruct (N.to_uint (Z.to_N n)) eqn:E; try (rewrite <- E; apply uint_plain).
  repeat constructor; discriminate.
Qed.
Lemma authority_plain a r : Forall plain_char (list_ascii_of_string a) -> (r = ""%string \/ exists r', r = String "/" r') -> authority (a ++ r) = a.
Proof.
  induction a as [|c a IH]; intros F Hr.
  - destruct Hr as [->|(r' & ->)]; reflexivity.
  - cbn in F. inversion F as [|? ? (H1 & H2 & H3 & _) Fa]; subst. apply Ascii.eqb_neq in H1, H2, H3. cbn. rewrite H1, H2, H3. cbn.
    rewrite IH by assumption. reflexivity.
Qed.
Lemma after_at_plain a : Forall plain_char (list_ascii_of_string a) -> after_at a = None.
Proof.
  induction a as [|c a IH]; intros F; [reflexivity|]. cbn in F. inversion F as [|? ? (_ & _ & _ & H) Fa]; subst.
  apply Ascii.eqb_neq in H. cbn. rewrite IH, H by assumption. reflexivity.
Qed.
Lemma plain_app a b : Forall plain_char (list_ascii_of_string a) -> Forall plain_char (list_ascii_of_string b) -> Forall plain_char (list_ascii_of_string (a ++ b)).
Proof. induction a as [|c a IH]; intros Fa Fb; [exact Fb|]. cbn in *. inversion Fa; subst. constructor; [assumption|apply IH; assumption]. Qed.
Lemma substring_whole s : String.substring 0 (String.length s) s = s.
Proof. induction s as [|c s IH]; [reflexivity|]. cbn. rewrite IH. reflexivity. Qed.

(** C81: if the path of the probe is empty or begins with "/", the requests go to the port of this machine that leads to the
    sidecar, and nowhere else. *)
Theorem C81_asks_the_sidecar : forall port p, (pb_path p = ""%string \/ exists r, pb_path p = String "/" r) ->
  addressed (probe_url port (probe_path p)) = ("localhost:" ++ decimal port)%string.
Proof.
  intros port p H. unfold addressed, probe_url.
  assert (E : forall r, String.substring 7 (String.length ("http://localhost:" ++ r) - 7) ("http://localhost:" ++ r) = ("localhost:" ++ r)%string).
  { intros r. cbn [append String.length Nat.sub]. exact (substring_whole ("localhost:" ++ r)). }
  rewrite E. assert (F : Forall plain_char (list_ascii_of_string ("localhost:" ++ decimal port))).
  { apply plain_app; [repeat constructor; discriminate|apply decimal_plain]. }
  assert (A : authority ("localhost:" ++ decimal port ++ probe_path p) = ("localhost:" ++ decimal port)%string).
  { change ("localhost:" ++ decimal port ++ probe_path p)%string with ("localhost:" ++ (decimal port ++ probe_path p))%string.
    assert (As : forall x y z : string, (x ++ (y ++ z) = (x ++ y) ++ z)%string) by (induction x as [|c x IH]; intros; cbn; [reflexivity|rewrite IH; reflexivity]).
    rewrite As. apply authority_plain; [exact F|]. unfold probe_path. destruct H as [->|(r & ->)]; [right; exists ""%string; reflexivity|right; exists r; reflexivity]. }
  rewrite A, (after_at_plain _ F). reflexivity.
Qed.
Print Assumptions C81_asks_the_sidecar.
(** The path is only checked not to be empty and not to be long (input/task.go:115-119): one that begins with "@" sends the
    worker's requests to any host. *)
Theorem C81_elsewhere_refuted : exists p port, String.length (pb_path p) <> O /\ (String.length (pb_path p) <= 256)%nat /\
  addressed (probe_url port (probe_path p)) = "169.254.169.254"%string.
Proof. exists (mkProbe "@169.254.169.254/latest/meta-data" 80 ""), 49153. split; [discriminate|]. split; [cbn; lia|]. vm_compute. reflexivity. Qed.
Print Assumptions C81_elsewhere_refuted.

(* ------------------------------------------------------------------ *)
(** ** the network *)
(** C81: the network is asked to be removed until the engine does it, five times at most; it is left behind exactly if the engine
    refused five times. *)
Theorem C81_network : forall answers,
  (fst (remove answers) <= 5)%nat /\
  (snd (remove answers) = true <-> exists k, (k < 5)%nat /\ answers k = true) /\
  (snd (remove answers) = true -> answers (pred (fst (remove answers))) = true /\ forall k, (k < pred (fst (remove answers)))%nat -> answers k = false).
Proof.
  intros answers. unfold remove. assert (G : forall n k,
    (fst (remove_network n answers k) <= n)%nat /\
    (snd (remove_network n answers k) = true <-> exists j, (k <= j < k + n)%nat /\ answers j = true) /\
    (snd (remove_network n answers k) = true -> (0 < fst (remove_network n answers k))%nat /\ answers (k + pred (fst (remove_network n answers k)))%nat = true /\
       forall j, (k <= j < k + pred (fst (remove_network n answers k)))%nat -> answers j = false)).
  { induction n as [|n IH]; intros k; cbn [remove_network].
    - cbn. split; [lia|]. split; [|discriminate]. split; [discriminate|]. intros (j & Hj & _). lia.
    - destruct (answers k) eqn:E.
      + cbn. split; [lia|]. split; [split; [intros _; exists k; split; [lia|exact E]|reflexivity]|]. intros _. rewrite Nat.add_0_r.
        split; [lia|]. split; [exact E|]. intros j Hj. lia.
      + destruct (IH (S k)) as (A & B & C). destruct (remove_network n answers (S k)) as [m ok]. cbn [fst snd] in *.
        split; [lia|]. split.
        * rewrite B. split; intros (j & Hj & Ej); exists j; (split; [|exact Ej]); [lia|].
          assert (j <> k) by (intros ->; congruence). lia.
        * intros Ho. destruct (C Ho) as (C0 & C1 & C2). split; [lia|]. cbn [pred]. destruct m as [|m]; [lia|]. cbn [pred] in C1, C2.
          split; [rewrite Nat.add_succ_r; exact C1|]. intros j Hj. destruct (Nat.eq_dec j k) as [->|Nj]; [exact E|]. apply C2. lia. }
  destruct (G 5%nat 0%nat) as (A & B & C). split; [exact A|]. split.
  - rewrite B. split; intros (j & Hj & E); exists j; (split; [lia|exact E]).
  - intros H. destruct (C H) as (_ & C1 & C2). split; [exact C1|]. intros k Hk. apply C2. lia.
Qed.
Print Assumptions C81_network.

Definition ex_sidecar (pr : option probe) : task := set t_probe (fun _ => pr) no_task.
Definition ex_task : task := set t_sidecars (fun _ => [ex_sidecar (Some (mkProbe "/health" 5432 "")); ex_sidecar None]) no_task.
Definition ex_fates (i : nat) : fate :=
  match i with
  | 1%nat => mkFate true true (Some 49153) true true [PAnswer None; PAnswer (Some 503); PAnswer (Some 200); PDone]
  | _ => mkFate true true None true true []
  end.
Example C81_example : run_with ex_fates ex_task =
  ([Created 0; Created 1; Started 1; Get 1 "http://localhost:49153/health" None; Get 1 "http://localhost:49153/health" (Some 503);
    Get 1 "http://localhost:49153/health" (Some 200); Created 2; Started 2; Started 0], true).
Proof. vm_compute. reflexivity. Qed.
