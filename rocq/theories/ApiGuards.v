(** C56: the guards of the API endpoints: cancel, restart, submit, deletion of a queue, creation of a user, and the
    page and size parameters of the listings.  (pause and resume of schedules: Scheduled.v.)
    internal/coordinator/api/api.go *)
From Coq Require Import Ascii.
From Verif Require Import Types World Eval Handlers SeqLogic Logic System SpecState Sim Validate.
Open Scope string_scope.
Open Scope list_scope.
Open Scope Z_scope.

(* ------------------------------------------------------------------ *)
(** * Jobs *)
(** Tables and broker as observed by a user *)
Definition same_store (w w' : world) : Prop :=
  w_tasks w' = w_tasks w /\ w_jobs w' = w_jobs w /\ w_nodes w' = w_nodes w.
Definition same_broker (w w' : world) : Prop := w_hist w' = w_hist w.

Definition cancellable (j : job) : Prop := j_state j = JScheduled \/ j_state j = JRunning.
Definition restartable (j : job) : Prop :=
  (j_state j = JFailed \/ j_state j = JCancelled) /\ j_position j <= Z.of_nat (length (j_tasks j)).

Lemma job_live_spec j : reflect (cancellable j) (job_live (j_state j)).
Proof. unfold cancellable. destruct (j_state j) eqn:E; constructor; intuition congruence. Qed.

Lemma job_live_cases j : (job_live (j_state j) = true /\ cancellable j) \/ (job_live (j_state j) = false /\ ~ cancellable j).
Proof. destruct (job_live_spec j); auto. Qed.

(** Whatever operations fail: an accepted cancellation was for a live job and asks the coordinator to cancel it, once,
    changing nothing else; a refused one has no effect at all. *)
Theorem C56_cancel : forall i w w' r, run (api_cancel i) w = (w', r) ->
  same_store w w' /\
  ((exists j, r = Ok tt /\ find_job i w = Some j /\ cancellable j /\
              w_hist w' = w_hist w ++ [MJob (j <| j_state := JCancelled |>)]) \/
   (r <> Ok tt /\ same_broker w w')).
Proof.
  intros i w w' r. unfold api_cancel. rewrite run_bind.
  destruct (case_get_job i w) as (w1 & C & [(j & F & E)|(e & E)]); rewrite E.
  2: { intros H; injection H as <- <-. destruct C as (?&?&?&?&_). split; [repeat split; assumption|right; split; [discriminate|assumption]]. }
  destruct (job_live_cases j) as [(B & L)|(B & L)]; rewrite B.
  2: { rewrite run_fail. intros H; injection H as <- <-. destruct C as (?&?&?&?&_). split; [repeat split; assumption|right; split; [discriminate|assumption]]. }
  unfold publish_job. destruct (case_publish (MJob (j <| j_state := JCancelled |>)) w1) as (w2 & [(C2 & e & E2)|(C2 & E2)]); rewrite E2; intros H; injection H as <- <-.
  - pose proof (calm_trans _ _ _ C C2) as (?&?&?&?&_). split; [repeat split; assumption|right; split; [discriminate|assumption]].
  - destruct C as (A1&A2&A3&A4&_), C2 as (B1&B2&B3&B4&_). cbn in *. split; [repeat split; congruence|left].
    exists j. split; [reflexivity|]. split; [assumption|]. split; [assumption|]. rewrite B4, A4. reflexivity.
Qed.
(** and when nothing fails it is accepted exactly for live jobs *)
Theorem C56_cancel_iff : forall i w w' r, w_faults w = [] -> run (api_cancel i) w = (w', r) ->
  (r = Ok tt <-> exists j, find_job i w = Some j /\ cancellable j).
Proof.
  intros i w w' r Hf. unfold api_cancel. rewrite run_bind, run_get_job by exact Hf.
  destruct (find_job i w) as [j|] eqn:F.
  2: { intros H; injection H as <- <-. split; [discriminate|intros (j & H & _); discriminate]. }
  destruct (job_live_cases j) as [(B & L)|(B & L)]; rewrite B.
  - unfold publish_job. rewrite run_publish by exact Hf. intros H; injection H as <- <-. split; [intros _; eauto|reflexivity].
  - rewrite run_fail. intros H; injection H as <- <-. split; [discriminate|]. intros (j' & E & H). injection E as <-. contradiction.
Qed.

Theorem C56_restart : forall i w w' r, run (api_restart i) w = (w', r) ->
  same_store w w' /\
  ((exists j, r = Ok tt /\ find_job i w = Some j /\ restartable j /\
              w_hist w' = w_hist w ++ [MJob (j <| j_state := JRestart |>)]) \/
   (r <> Ok tt /\ same_broker w w')).
Proof.
  intros i w w' r. unfold api_restart. rewrite run_bind.
  destruct (case_get_job i w) as (w1 & C & [(j & F & E)|(e & E)]); rewrite E.
  2: { intros H; injection H as <- <-. destruct C as (?&?&?&?&_). split; [repeat split; assumption|right; split; [discriminate|assumption]]. }
  assert (K : forall e, run (@fail unit e) w1 = (w', r) ->
     same_store w w' /\ ((exists j, r = Ok tt /\ find_job i w = Some j /\ restartable j /\
              w_hist w' = w_hist w ++ [MJob (j <| j_state := JRestart |>)]) \/ (r <> Ok tt /\ same_broker w w'))).
  { intros e H. rewrite run_fail in H. injection H as <- <-. destruct C as (?&?&?&?&_). split; [repeat split; assumption|right; split; [discriminate|assumption]]. }
  assert (P : (j_state j = JFailed \/ j_state j = JCancelled) ->
     run (if Z.of_nat (length (j_tasks j)) <? j_position j then fail "job has no more tasks to run" else publish_job (j <| j_state := JRestart |>)) w1 = (w', r) ->
     same_store w w' /\ ((exists j, r = Ok tt /\ find_job i w = Some j /\ restartable j /\
              w_hist w' = w_hist w ++ [MJob (j <| j_state := JRestart |>)]) \/ (r <> Ok tt /\ same_broker w w'))).
  { intros Hs. destruct (Z.ltb_spec (Z.of_nat (length (j_tasks j))) (j_position j)) as [L|L]; [apply K|].
    unfold publish_job. destruct (case_publish (MJob (j <| j_state := JRestart |>)) w1) as (w2 & [(C2 & e & E2)|(C2 & E2)]); rewrite E2; intros H; injection H as <- <-.
    - pose proof (calm_trans _ _ _ C C2) as (?&?&?&?&_). split; [repeat split; assumption|right; split; [discriminate|assumption]].
    - destruct C as (A1&A2&A3&A4&_), C2 as (B1&B2&B3&B4&_). cbn in *. split; [repeat split; congruence|left].
      exists j. split; [reflexivity|]. split; [assumption|]. split; [split; assumption|]. rewrite B4, A4. reflexivity. }
  destruct (j_state j) eqn:Es; try apply K; apply P; auto.
Qed.
Theorem C56_restart_iff : forall i w w' r, w_faults w = [] -> run (api_restart i) w = (w', r) ->
  (r = Ok tt <-> exists j, find_job i w = Some j /\ restartable j).
Proof.
  intros i w w' r Hf. unfold api_restart. rewrite run_bind, run_get_job by exact Hf.
  destruct (find_job i w) as [j|] eqn:F.
  2: { intros H; injection H as <- <-. split; [discriminate|intros (j & H & _); discriminate]. }
  assert (K : forall e, ~ restartable j -> run (@fail unit e) w = (w', r) -> (r = Ok tt <-> exists j0, Some j = Some j0 /\ restartable j0)).
  { intros e Hn H. rewrite run_fail in H. injection H as <- <-. split; [discriminate|]. intros (j' & E & H). injection E as <-. contradiction. }
  assert (P : (j_state j = JFailed \/ j_state j = JCancelled) ->
     run (if Z.of_nat (length (j_tasks j)) <? j_position j then fail "job has no more tasks to run" else publish_job (j <| j_state := JRestart |>)) w = (w', r) ->
     (r = Ok tt <-> exists j0, Some j = Some j0 /\ restartable j0)).
  { intros Hs. destruct (Z.ltb_spec (Z.of_nat (length (j_tasks j))) (j_position j)) as [L|L].
    - apply K. intros (_ & H). lia.
    - unfold publish_job. rewrite run_publish by exact Hf. intros H; injection H as <- <-. split; [intros _|reflexivity].
      exists j. split; [reflexivity|split; assumption]. }
  destruct (j_state j) eqn:Es; try (apply K; unfold restartable; rewrite Es; intuition discriminate); apply P; auto.
Qed.

(** A submission whose announcement fails is refused, but the job stays in the store, PENDING and never started:
    a refused call did have an effect. *)
Theorem C56_failed_submission_leaves_job_refuted :
  exists w d, find_job (w_fresh w) w = None /\
    let '(w', r) := run (api_submit d) w in
    r <> Ok tt /\ w_hist w' = w_hist w /\
    exists j, find_job (w_fresh w) w' = Some j /\ j_state j = JPending.
Proof.
  exists (mkWorld [] [] [] [] 1%N 0 [false; true] []), (demo_job [simple "a"]).
  split; [reflexivity|]. vm_compute. split; [discriminate|]. split; [reflexivity|]. eexists. split; reflexivity.
Qed.

(* ------------------------------------------------------------------ *)
(** * Query parameters *)
(** strconv.Atoi (Go, 64-bit int): an optional sign and at least one decimal digit, in range *)
Definition digit_of (c : ascii) : option Z :=
  let n := Z.of_nat (nat_of_ascii c) in if (48 <=? n) && (n <=? 57) then Some (n - 48) else None.
Fixpoint digits (acc : Z) (s : string) : option Z :=
  match s with
  | "" => Some acc
  | String c s => match digit_of c with Some d => digits (10 * acc + d) s | None => None end
  end.
Definition MAX_INT : Z := 9223372036854775807.
Definition in_int (z : Z) : option Z := if (- MAX_INT - 1 <=? z) && (z <=? MAX_INT) then Some z else None.
Definition unsigned (s : string) : option Z := match s with "" => None | _ => digits 0 s end.
Definition atoi (s : string) : option Z :=
  match s with
  | String "+"%char r => match unsigned r with Some z => in_int z | None => None end
  | String "-"%char r => match unsigned r with Some z => in_int (- z) | None => None end
  | _ => match unsigned s with Some z => in_int z | None => None end
  end.

(** api.go:497-506 (listJobs), 594-603, 447-456, 752-761: the page number; [None]: refused *)
Definition page_param (s : string) : option Z :=
  match atoi (if String.eqb s "" then "1" else s) with
  | Some p => Some (if p <? 1 then 1 else p)
  | None => None
  end.
(** api.go:508-519 (default "10", at most 20), 605-616, 458-473 and 763-776 (default "25", at most [MAX_LOG_PAGE_SIZE]) *)
Definition size_param (dflt : string) (max : Z) (s : string) : option Z :=
  match atoi (if String.eqb s "" then dflt else s) with
  | Some n => Some (if n <? 1 then 1 else if max <? n then max else n)
  | None => None
  end.
(** api.go:39 *)
Definition MAX_LOG_PAGE_SIZE : Z := 100.
Definition jobs_size := size_param "10" 20.
Definition log_size := size_param "25" MAX_LOG_PAGE_SIZE.

(** Specification: decimal numerals and what they stand for *)
Inductive sign := NoSign | Plus | Minus.
Definition sign_text (s : sign) : string := match s with NoSign => "" | Plus => "+" | Minus => "-" end.
Definition digit_text (d : nat) : string :=
  match d with 0 => "0" | 1 => "1" | 2 => "2" | 3 => "3" | 4 => "4" | 5 => "5" | 6 => "6" | 7 => "7" | 8 => "8" | _ => "9" end%nat.
Fixpoint numeral_text (ds : list nat) : string := match ds with [] => "" | d :: ds => (digit_text d ++ numeral_text ds)%string end.
(** value of the digits, most significant first *)
Fixpoint numeral_value (ds : list nat) : Z :=
  match ds with [] => 0 | d :: r => Z.of_nat d * 10 ^ Z.of_nat (length r) + numeral_value r end.
Definition signed (s : sign) (z : Z) : Z := match s with Minus => - z | _ => z end.
(** [s] is a decimal numeral for [z], in the range of the platform's integers *)
Definition denotes (s : string) (z : Z) : Prop :=
  exists sg ds, ds <> [] /\ Forall (fun d => (d < 10)%nat) ds /\ s = (sign_text sg ++ numeral_text ds)%string /\
    z = signed sg (numeral_value ds) /\ - 2 ^ 63 <= z < 2 ^ 63.

Lemma digit_text_spec c d : digit_of c = Some d -> exists n, (n < 10)%nat /\ d = Z.of_nat n /\ String c "" = digit_text n.
Proof.
  assert (H : forall c, match digit_of c with Some d => existsb (fun n => (Z.eqb d (Z.of_nat n)) && String.eqb (String c "") (digit_text n)) (seq 0 10) = true | None => True end).
  { intros [[] [] [] [] [] [] [] []]; vm_compute; exact I || reflexivity. }
  intros E. specialize (H c). rewrite E in H. apply existsb_exists in H. destruct H as (n & Hn & H).
  apply andb_true_iff in H as (H1 & H2). apply in_seq in Hn. exists n. split; [lia|]. split; [now apply Z.eqb_eq|now apply String.eqb_eq].
Qed.
Lemma digit_text_of n : (n < 10)%nat -> exists c, digit_text n = String c "" /\ digit_of c = Some (Z.of_nat n) /\ c <> "+"%char /\ c <> "-"%char.
Proof.
  intros H. do 10 (destruct n as [|n]; [eexists; split; [reflexivity|split; [reflexivity|split; discriminate]]|]). lia.
Qed.
Lemma digits_numeral ds : Forall (fun d => (d < 10)%nat) ds -> forall acc,
  digits acc (numeral_text ds) = Some (acc * 10 ^ Z.of_nat (length ds) + numeral_value ds).
Proof.
  induction 1 as [|d ds Hd _ IH]; intros acc; [cbn; f_equal; lia|].
  cbn [numeral_text numeral_value]. destruct (digit_text_of d Hd) as (c & E & E2 & _). rewrite E. cbn [append digits]. rewrite E2, IH.
  f_equal. cbn [length]. rewrite Nat2Z.inj_succ, Z.pow_succ_r by lia. ring.
Qed.
Lemma digits_inv s : forall acc z, digits acc s = Some z -> exists ds, Forall (fun d => (d < 10)%nat) ds /\ s = numeral_text ds.
Proof.
  induction s as [|c s IH]; intros acc z H; cbn in H; [exists []; split; [constructor|reflexivity]|].
  destruct (digit_of c) as [d|] eqn:E; [|discriminate]. destruct (IH _ _ H) as (ds & Hd & ->).
  destruct (digit_text_spec c d E) as (n & Hn & _ & Hc). exists (n :: ds). split; [now constructor|]. cbn. now rewrite <- Hc.
Qed.
Lemma unsigned_numeral ds : ds <> [] -> Forall (fun d => (d < 10)%nat) ds -> unsigned (numeral_text ds) = Some (numeral_value ds).
Proof.
  intros Hn Hd. pose proof (digits_numeral ds Hd 0) as H. unfold unsigned. rewrite Z.mul_0_l, Z.add_0_l in H. rewrite <- H.
  destruct ds as [|d ds]; [congruence|]. cbn [numeral_text]. inversion Hd as [|? ? Hd1 _]; subst.
  destruct (digit_text_of d Hd1) as (c & -> & _). reflexivity.
Qed.
Lemma unsigned_inv s z : unsigned s = Some z -> exists ds, ds <> [] /\ Forall (fun d => (d < 10)%nat) ds /\ s = numeral_text ds /\ z = numeral_value ds.
Proof.
  intros H. destruct s as [|c s]; [discriminate|]. destruct (digits_inv (String c s) 0 z H) as (ds & Hd & E).
  assert (Hn : ds <> []) by (intros ->; discriminate). exists ds. split; [assumption|]. split; [assumption|]. split; [assumption|].
  rewrite E in H. rewrite (unsigned_numeral ds Hn Hd) in H. congruence.
Qed.
Lemma in_int_spec z y : in_int z = Some y <-> y = z /\ - 2 ^ 63 <= z < 2 ^ 63.
Proof.
  change (2 ^ 63) with 9223372036854775808. unfold in_int. change (- MAX_INT - 1) with (-9223372036854775808). unfold MAX_INT.
  destruct (Z.leb_spec (-9223372036854775808) z) as [A|A]; destruct (Z.leb_spec z 9223372036854775807) as [B|B]; cbn [andb].
  - split; [intros E; injection E as <-; split; [reflexivity|lia]|intros (-> & _); reflexivity].
  - split; [discriminate|intros (_ & E); lia].
  - split; [discriminate|intros (_ & E); lia].
  - split; [discriminate|intros (_ & E); lia].
Qed.
Lemma atoi_denotes s z : atoi s = Some z <-> denotes s z.
Proof.
  split.
  - intros H.
    assert (P : forall sg r, s = (sign_text sg ++ r)%string -> match unsigned r with Some y => in_int (signed sg y) | None => None end = Some z -> denotes s z).
    { intros sg r -> E. destruct (unsigned r) as [y|] eqn:U; [|discriminate]. destruct (unsigned_inv _ _ U) as (ds & Hn & Hd & -> & ->).
      apply in_int_spec in E as (-> & E). exists sg, ds. auto. }
    destruct s as [|c s]; [discriminate|].
    destruct (ascii_dec c "+") as [->|N1]; [exact (P Plus s eq_refl H)|].
    destruct (ascii_dec c "-") as [->|N2]; [exact (P Minus s eq_refl H)|].
    apply (P NoSign (String c s) eq_refl). cbn [signed]. rewrite <- H. unfold atoi.
    destruct c as [[] [] [] [] [] [] [] []]; try reflexivity; congruence.
  - intros (sg & ds & Hn & Hd & -> & -> & R).
    pose proof (unsigned_numeral ds Hn Hd) as U.
    destruct sg; cbn [sign_text append signed] in *.
    + destruct ds as [|d ds]; [congruence|]. inversion Hd as [|? ? Hd1 Hd2]; subst.
      cbn [numeral_text] in *. destruct (digit_text_of d Hd1) as (c & E & _ & N1 & N2). rewrite E in *. cbn [append] in *.
      assert (A : forall s, atoi (String c s) = match unsigned (String c s) with Some z => in_int z | None => None end).
      { intros s. unfold atoi. destruct c as [[] [] [] [] [] [] [] []]; try reflexivity; congruence. }
      rewrite A, U. apply in_int_spec. auto.
    + cbn [atoi]. rewrite U. apply in_int_spec. auto.
    + cbn [atoi]. rewrite U. apply in_int_spec. auto.
Qed.

Lemma denotes_nonempty s z : denotes s z -> s <> "".
Proof.
  intros (sg & ds & Hn & Hd & -> & _). destruct sg; cbn; try discriminate. destruct ds as [|d ds]; [congruence|].
  inversion Hd as [|? ? H _]; subst. cbn. destruct (digit_text_of d H) as (c & -> & _). discriminate.
Qed.

(** A page number: 1 if absent, the given number raised to 1 if it is a numeral, refused otherwise *)
Theorem C56_page : forall s,
  (s = "" -> page_param s = Some 1) /\
  (forall z, denotes s z -> page_param s = Some (Z.max 1 z)) /\
  (s <> "" -> (forall z, ~ denotes s z) -> page_param s = None).
Proof.
  intros s. unfold page_param. split; [intros ->; reflexivity|]. split.
  - intros z H. pose proof (denotes_nonempty s z H) as Hn. apply String.eqb_neq in Hn. rewrite Hn.
    apply atoi_denotes in H. rewrite H. f_equal. destruct (Z.ltb_spec z 1); lia.
  - intros Hn H. apply String.eqb_neq in Hn. rewrite Hn. destruct (atoi s) as [z|] eqn:E; [|reflexivity].
    apply atoi_denotes in E. destruct (H z E).
Qed.
(** A page size: the default if absent, the given number brought into [1, max] if it is a numeral, refused otherwise *)
Definition size_spec (f : string -> option Z) (dflt max : Z) : Prop := forall s,
  (s = "" -> f s = Some dflt) /\
  (forall z, denotes s z -> f s = Some (Z.min max (Z.max 1 z))) /\
  (s <> "" -> (forall z, ~ denotes s z) -> f s = None).
Lemma size_param_spec d dflt max : 1 <= max -> size_param d max "" = Some dflt -> size_spec (size_param d max) dflt max.
Proof.
  intros Hm Hd s. split; [intros ->; exact Hd|]. unfold size_param. split.
  - intros z H. pose proof (denotes_nonempty s z H) as Hn. apply String.eqb_neq in Hn. rewrite Hn.
    apply atoi_denotes in H. rewrite H. f_equal. destruct (Z.ltb_spec z 1); [lia|]. destruct (Z.ltb_spec max z); lia.
  - intros Hn H. apply String.eqb_neq in Hn. rewrite Hn. destruct (atoi s) as [z|] eqn:E; [|reflexivity].
    apply atoi_denotes in E. destruct (H z E).
Qed.
Theorem C56_sizes : size_spec jobs_size 10 20 /\ size_spec log_size 25 100.
Proof. split; apply size_param_spec; try lia; reflexivity. Qed.
(** in particular: always within the legal range *)
Theorem C56_clamped : forall s,
  (forall p, page_param s = Some p -> 1 <= p) /\
  (forall n, jobs_size s = Some n -> 1 <= n <= 20) /\ (forall n, log_size s = Some n -> 1 <= n <= 100).
Proof.
  intros s. unfold page_param, jobs_size, log_size, size_param, MAX_LOG_PAGE_SIZE. split; [|split]; intros p H.
  - destruct (atoi _) as [z|]; [injection H as <-|discriminate]. destruct (Z.ltb_spec z 1); lia.
  - destruct (atoi _) as [z|]; [injection H as <-|discriminate]. destruct (Z.ltb_spec z 1); [lia|destruct (Z.ltb_spec 20 z); lia].
  - destruct (atoi _) as [z|]; [injection H as <-|discriminate]. destruct (Z.ltb_spec z 1); [lia|destruct (Z.ltb_spec 100 z); lia].
Qed.

Example parameters_read :
  page_param "" = Some 1 /\ page_param "-7" = Some 1 /\ page_param "+12" = Some 12 /\ page_param "3x" = None /\
  page_param "9223372036854775808" = None /\ jobs_size "9999" = Some 20 /\ jobs_size "0" = Some 1 /\ log_size "007" = Some 7.
Proof. repeat split; reflexivity. Qed.

(* ------------------------------------------------------------------ *)
(** * Queues *)
(** queues.go:68-70 *)
Definition is_task_queue (q : string) : bool := negb (is_coordinator_queue q) && negb (String.prefix QUEUE_EXCLUSIVE_PREFIX q).
(** What the broker's queues hold, by name (inmemory.go:24; the map's order is not observable). *)
Definition queues := list (string * list msg).
Definition queue_named (q : string) (b : queues) : option (list msg) :=
  match find (fun e => String.eqb (fst e) q) b with Some (_, ms) => Some ms | None => None end.
Inductive answer := A_ok | A_bad | A_notfound.
(** api.go:265-277 with inmemory.go:193-202 (QueueInfo) and 204-207 (DeleteQueue); [info] and [del] say whether the
    broker answers (a remote broker may not); an unanswered deletion changes nothing. *)
Definition delete_queue (info del : bool) (q : string) (b : queues) : queues * answer :=
  if negb (is_task_queue q) then (b, A_bad)
  else match (if info then queue_named q b else None) with
       | None => (b, A_notfound)
       | Some _ => if del then (filter (fun e => negb (String.eqb (fst e) q)) b, A_ok) else (b, A_bad)
       end.

(** A queue is deleted iff it is a user's queue and exists; then exactly it disappears; a refused call changes nothing. *)
Theorem C56_delete_queue : forall info del q b b' a, delete_queue info del q b = (b', a) ->
  (a = A_ok -> user_queue q /\ queue_named q b <> None /\ queue_named q b' = None /\ forall p, p <> q -> queue_named p b' = queue_named p b) /\
  (a <> A_ok -> b' = b) /\
  (info = true -> del = true -> user_queue q -> queue_named q b <> None -> a = A_ok).
Proof.
  intros info del q b b' a. unfold delete_queue.
  assert (T : is_task_queue q = true <-> user_queue q).
  { pose proof (validate_queue_spec (fun _ => true) (fun _ => true) (fun _ => O) (fun _ => true) (fun _ => true) q) as V. unfold validate_queue, optional in V. unfold is_task_queue.
    destruct (isempty_spec q) as [->|Hq].
    - split; [intros _|reflexivity]. split; [vm_compute; intuition discriminate|intros r; discriminate].
    - cbn [orb] in V. rewrite andb_comm. rewrite V. tauto. }
  destruct (is_task_queue q) eqn:K; cbn [negb].
  2: { intros H; injection H as <- <-. split; [discriminate|]. split; [reflexivity|]. intros _ _ U. apply T in U. discriminate. }
  pose proof (proj1 T eq_refl) as U. clear T K.
  destruct (if info then queue_named q b else None) as [ms|] eqn:F.
  2: { intros H; injection H as <- <-. split; [discriminate|]. split; [reflexivity|]. intros -> _ _ N. congruence. }
  destruct info; [|discriminate].
  destruct del; intros H; injection H as <- <-.
  - split; [|split; [congruence|auto]]. intros _. split; [exact U|]. split; [congruence|].
    unfold queue_named. split.
    + replace (find _ (filter _ b)) with (@None (string * list msg)); [reflexivity|]. symmetry.
      clear. induction b as [|[x l] b IH]; cbn; [reflexivity|]. destruct (String.eqb x q) eqn:E; cbn; [exact IH|]. rewrite E. exact IH.
    + intros p Hp. f_equal. clear - Hp. induction b as [|[x l] b IH]; cbn; [reflexivity|].
      destruct (String.eqb_spec x q) as [->|E]; cbn; [|destruct (String.eqb x p); [reflexivity|exact IH]].
      destruct (String.eqb_spec q p) as [->|]; [congruence|exact IH].
  - split; [discriminate|]. split; [reflexivity|]. intros _ D. discriminate.
Qed.
Example queues_deleted :
  snd (delete_queue true true "default" [("pending", []); ("default", [])]) = A_ok /\
  snd (delete_queue true true "pending" [("pending", []); ("default", [])]) = A_bad /\
  snd (delete_queue true true "x-1" [("x-1", [])]) = A_bad /\ snd (delete_queue true true "q" [("default", [])]) = A_notfound.
Proof. repeat split; reflexivity. Qed.

(* ------------------------------------------------------------------ *)
(** * Users *)
Section Users.
(** strings.TrimSpace and internal/hash (bcrypt): any functions; hashing may refuse a password (longer than 72 bytes) *)
Variable trim : string -> string.
Variable hash : string -> option string.
(** What the store keeps (postgres.go:1168-1181, CreateUser; Accounts.v has the full row): name and password hash.  The schema's UNIQUE constraint on
    the name makes a second insertion fail. *)
Definition accounts := list (string * string).
(** api.go:863-897.  [get] and [put]: whether the store answers. *)
Definition create_user (get put : bool) (name pw : string) (us : accounts) : accounts * answer :=
  let name := trim name in
  if String.eqb name "" then (us, A_bad)
  else let pw := trim pw in
  if String.eqb pw "" then (us, A_bad)
  else match hash pw with
       | None => (us, A_bad)
       | Some h =>
           if negb get then (us, A_bad)
           else if existsb (fun u => String.eqb (fst u) name) us then (us, A_bad)
           else if put then (us ++ [(name, h)], A_ok) else (us, A_bad)
       end.
(** A user is created iff name and password are not blank, the password can be hashed and the name is free; names stay
    unique, the password itself is never stored and existing accounts are untouched. *)
Theorem C56_create_user : forall get put name pw us us' a, create_user get put name pw us = (us', a) ->
  (a <> A_ok -> us' = us) /\
  (a = A_ok -> trim name <> "" /\ trim pw <> "" /\ ~ In (trim name) (map fst us) /\ exists h, hash (trim pw) = Some h /\ us' = us ++ [(trim name, h)]) /\
  (NoDup (map fst us) -> NoDup (map fst us')) /\
  (get = true -> put = true -> trim name <> "" -> trim pw <> "" -> ~ In (trim name) (map fst us) -> hash (trim pw) <> None -> a = A_ok).
Proof.
  intros get put name pw us us' a. unfold create_user. cbn zeta.
  assert (X : existsb (fun u : string * string => String.eqb (fst u) (trim name)) us = true <-> In (trim name) (map fst us)).
  { rewrite existsb_exists, in_map_iff. split; intros (x & H1 & H2); exists x; [apply String.eqb_eq in H2|rewrite H1, String.eqb_refl]; auto. }
  destruct (String.eqb_spec (trim name) "") as [E1|E1]; [intros H; injection H as <- <-; intuition congruence|].
  destruct (String.eqb_spec (trim pw) "") as [E2|E2]; [intros H; injection H as <- <-; intuition congruence|].
  destruct (hash (trim pw)) as [h|]; [|intros H; injection H as <- <-; intuition congruence].
  destruct get; cbn [negb]; [|intros H; injection H as <- <-; intuition congruence].
  destruct (existsb _ us) eqn:E3; [intros H; injection H as <- <-; intuition congruence|].
  assert (N : ~ In (trim name) (map fst us)) by (intros H; apply X in H; congruence).
  destruct put; intros H; injection H as <- <-; [|intuition congruence].
  split; [congruence|]. split; [intros _; eauto 10|]. split; [|reflexivity].
  intros D. rewrite map_app. cbn [map fst]. apply NoDup_Add with (a := trim name) (l := map fst us); [|split; assumption].
  rewrite <- (app_nil_r (map fst us)) at 1. apply Add_app.
Qed.
End Users.
Example a_user_is_created :
  create_user (fun s => s) (fun s => Some ("#" ++ s)%string) true true "a" "b" [] = ([("a", "#b")], A_ok) /\
  snd (create_user (fun s => s) (fun s => Some s) true true "a" "c" [("a", "b")]) = A_bad.
Proof. split; reflexivity. Qed.

(** ** Cases meeting the hypotheses *)
Definition guard_world (st : jstate) (pos : Z) : world :=
  mkWorld [] [new_job 1%N 0 (demo_job [simple "a"; simple "b"]) <| j_state := st |> <| j_position := pos |>] [] [] 2%N 0 [] [].
Example guards_seen :
  snd (run (api_cancel 1%N) (guard_world JRunning 1)) = Ok tt /\ snd (run (api_cancel 1%N) (guard_world JPending 0)) <> Ok tt /\
  snd (run (api_cancel 1%N) (guard_world JFailed 1)) <> Ok tt /\
  snd (run (api_restart 1%N) (guard_world JFailed 2)) = Ok tt /\ snd (run (api_restart 1%N) (guard_world JFailed 3)) <> Ok tt /\
  snd (run (api_restart 1%N) (guard_world JRunning 1)) <> Ok tt /\ snd (run (api_restart 1%N) (guard_world JCompleted 2)) <> Ok tt.
Proof. repeat split; vm_compute; congruence. Qed.

Print Assumptions C56_cancel.
Print Assumptions C56_cancel_iff.
Print Assumptions C56_restart.
Print Assumptions C56_restart_iff.
Print Assumptions C56_failed_submission_leaves_job_refuted.
Print Assumptions C56_page.
Print Assumptions C56_sizes.
Print Assumptions C56_clamped.
Print Assumptions C56_delete_queue.
Print Assumptions C56_create_user.
