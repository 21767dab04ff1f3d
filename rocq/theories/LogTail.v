(** C89: how much of what a task prints reaches its log.
    runtime/docker/tcontainer.go:259-329 (Wait: the copying goroutine, ContainerWait, the deferred Close), runtime/shell/shell.go:187-255
    (StdoutPipe, the copying goroutine, cmd.Wait), runtime/podman/podman.go:330-352 (podman logs --follow, run to its end).
    The output is what the process has written so far; [unread] of it is still on the way (pipe or connection).  The copying
    goroutine (io.Copy) takes some bytes of it into its buffer and then calls the logger's Write.  os/exec: cmd.Wait closes the
    read end of StdoutPipe when it has seen the process exit; cmd.Run with Stdout set returns after the copying is done.
    Simplified: the Docker stream is taken without its frames (they are C75's); the logger is the shipper alone. *)
From Coq Require Import List Ascii Arith Lia Bool Permutation ZArith.
From Verif Require Import Types World Listing LogShip LogEnd.
Import ListNotations.
Open Scope list_scope.

(* ------------------------------------------------------------------ *)
(** * Model *)
Inductive runtime := Docker | Shell | Podman.
(** [lt_out]: all the process has written; [lt_logged]: the bytes given to the logger, by Write calls; [lt_held]: in the
    copying goroutine's buffer; [lt_closed]: the read end is closed; [lt_eof]: the copying goroutine has seen the end;
    [lt_ended]: the run returned, and whether without an error *)
Record lt := mkLt { lt_out : bytes; lt_unread : bytes; lt_held : bytes; lt_logged : bytes; lt_exited : bool; lt_closed : bool;
                    lt_eof : bool; lt_ended : option bool }.
Definition lt0 := mkLt [] [] [] [] false false false None.
(** the Write calls of the step *)
Inductive ltstep (r : runtime) : lt -> list bytes -> lt -> Prop :=
| l_print s c : lt_exited s = false ->
    ltstep r s [] (mkLt (lt_out s ++ c) (lt_unread s ++ c) (lt_held s) (lt_logged s) false (lt_closed s) (lt_eof s) (lt_ended s))
| l_exit s : ltstep r s [] (mkLt (lt_out s) (lt_unread s) (lt_held s) (lt_logged s) true (lt_closed s) (lt_eof s) (lt_ended s))
(** io.Copy: Read gives some bytes ... *)
| l_read s a b : lt_held s = [] -> lt_closed s = false -> lt_eof s = false -> lt_unread s = a ++ b -> a <> [] ->
    ltstep r s [] (mkLt (lt_out s) b a (lt_logged s) (lt_exited s) false false (lt_ended s))
(** ... which are written to the logger *)
| l_write s : lt_held s <> [] ->
    ltstep r s [lt_held s] (mkLt (lt_out s) (lt_unread s) [] (lt_logged s ++ lt_held s) (lt_exited s) (lt_closed s) (lt_eof s) (lt_ended s))
| l_eof s : lt_held s = [] -> lt_closed s = false -> lt_unread s = [] -> lt_exited s = true ->
    ltstep r s [] (mkLt (lt_out s) [] [] (lt_logged s) (lt_exited s) false true (lt_ended s))
(** tcontainer.go:287-327 and the deferred 274-279; shell.go:233-250 and os/exec: the process has ended, the run goes on to
    return, the reader is closed.  Nothing waits for the copying goroutine. *)
| l_done s : r <> Podman -> lt_ended s = None -> lt_exited s = true ->
    ltstep r s [] (mkLt (lt_out s) (lt_unread s) (lt_held s) (lt_logged s) true true (lt_eof s) (Some true))
(** podman.go:330-352: the run goes on when podman logs has ended *)
| l_done_podman s : r = Podman -> lt_ended s = None -> lt_eof s = true ->
    ltstep r s [] (mkLt (lt_out s) (lt_unread s) (lt_held s) (lt_logged s) (lt_exited s) true true (Some true))
(** an error, a timeout or a cancellation *)
| l_fail s : lt_ended s = None ->
    ltstep r s [] (mkLt (lt_out s) (lt_unread s) (lt_held s) (lt_logged s) (lt_exited s) true (lt_eof s) (Some false)).
Inductive ltruns (r : runtime) : lt -> list bytes -> lt -> Prop :=
| ltr_nil s : ltruns r s [] s
| ltr_step s w s1 w1 s2 : ltruns r s w s1 -> ltstep r s1 w1 s2 -> ltruns r s (w ++ w1) s2.

(* ------------------------------------------------------------------ *)
(** * Proofs *)
Record lt_ok (s : lt) : Prop := mkLtOk {
  ok_bytes : lt_out s = lt_logged s ++ lt_held s ++ lt_unread s;
  ok_eof : lt_eof s = true -> lt_exited s = true /\ lt_held s = [] /\ lt_unread s = [] }.
Lemma lt_inv r w s : ltruns r lt0 w s -> lt_ok s /\ concat w = lt_logged s /\ (r = Podman -> lt_ended s = Some true -> lt_eof s = true).
Proof.
  remember lt0 as s0 eqn:E0. induction 1 as [|s w s1 w1 s2 Hr IH Hs]; subst.
  - split; [split; [reflexivity|discriminate]|]. split; [reflexivity|discriminate].
  - destruct (IH eq_refl) as ((B & F) & C & P). clear IH. rewrite concat_app, C. destruct Hs as [s c X|s|s a b H1 H2 H3 H4 H5|s H1|s H1 H2 H3 H4|s R N X|s R N X|s N];
      cbn [lt_out lt_unread lt_held lt_logged lt_exited lt_closed lt_eof lt_ended concat] in *; rewrite ?app_nil_r.
    + split; [|split; [reflexivity|exact P]]. split; cbn; [rewrite B, <- !app_assoc; reflexivity|]. intros E. destruct (F E) as (F1 & _). congruence.
    + split; [|split; [reflexivity|exact P]]. split; cbn; [exact B|]. intros E. destruct (F E) as (_ & F2). tauto.
    + split; [|split; [reflexivity|]]. 2: { intros R E. specialize (P R E). congruence. } split; cbn; [rewrite B, H1, H4; reflexivity|discriminate].
    + split; [|split; [reflexivity|exact P]]. split; cbn; [rewrite B, <- !app_assoc; reflexivity|]. intros E. destruct (F E) as (_ & F2 & _). congruence.
    + split; [|split; [reflexivity|auto]]. split; cbn; [rewrite B, H1, H3; reflexivity|auto].
    + split; [|split; [reflexivity|congruence]]. split; cbn; [exact B|]. intros E. destruct (F E) as (_ & F2). tauto.
    + split; [|split; [reflexivity|auto]]. split; cbn; [exact B|]. intros _. apply F. exact X.
    + split; [|split; [reflexivity|discriminate]]. split; cbn; [exact B|exact F].
Qed.

(* ------------------------------------------------------------------ *)
(** * Theorems *)
(** ** Nothing is invented or reordered: the bytes given to the logger are always the beginning of the output. *)
Theorem C89_logged_is_a_prefix : forall r w s, ltruns r lt0 w s -> exists rest, lt_out s = concat w ++ rest.
Proof. intros r w s H. destruct (lt_inv r w s H) as ((B & _) & C & _). rewrite C, B. eauto. Qed.
(** ** Podman: a run that ends without an error has logged all of the output. *)
Theorem C89_podman_logs_everything : forall w s, ltruns Podman lt0 w s -> lt_ended s = Some true -> concat w = lt_out s.
Proof.
  intros w s H E. destruct (lt_inv Podman w s H) as ((B & F) & C & P). destruct (F (P eq_refl E)) as (_ & F2 & F3). rewrite C, B, F2, F3. now rewrite !app_nil_r.
Qed.
(** ** Docker and shell: also those that lose nothing, if the copying goroutine saw the end before the run returned *)
Theorem C89_complete_if_copied : forall r w s, ltruns r lt0 w s -> lt_eof s = true -> concat w = lt_out s.
Proof. intros r w s H E. destruct (lt_inv r w s H) as ((B & F) & C & _). destruct (F E) as (_ & F2 & F3). rewrite C, B, F2, F3. now rewrite !app_nil_r. Qed.

(** ** From the process to the reader
    The logger's Write calls are the shipper's (C37); the parts reach the coordinator and are read in pages (C86).  Then what
    is read of the log is the beginning of what the process printed; all of it, for a run of podman without an error. *)
Open Scope Z_scope.
Theorem C89_read_is_a_prefix : forall r w s tm tr sh b t arr table size get total,
  ltruns r lt0 w s -> written tr = concat w ->
  sruns ship0 tr sh -> sh_q sh = [] -> sh_buf sh = [] -> Z.of_nat (length (parts tr)) < 2 ^ 31 ->
  (forall n c ok, In (n, c, ok) (parts tr) -> ok = true /\ text c) ->
  Permutation (of_task t arr) (map (fun x => carry b (published_part t x)) (delivered tr)) ->
  (forall a, In a arr -> is_task t (ar_part a) = true -> ar_present a = true) ->
  (forall q, In q table -> lr_task q <> t) ->
  let table' := handle_all arr table in
  1 <= size < 2 ^ 62 -> total = total_pages (Z.of_nat (length (filter (fun q => N.eqb (lr_task q) t) table'))) size ->
  (forall p, 1 <= p <= total -> get_task_log tm table' t "" p size (Some (get p))) ->
  exists rest, lt_out s = read_log get total ++ rest /\ (r = Podman -> lt_ended s = Some true -> rest = []).
Proof.
  intros r w s tm tr sh b t arr table size get total Hl Hw Hr Hq Hb Hlen Hok Hperm Hpres Hno table' Hsize Htotal Hget.
  rewrite (C86_log_reads_back tm tr sh b t arr table size get total Hr Hq Hb Hlen Hok Hperm Hpres Hno Hsize Htotal Hget), Hw.
  destruct (C89_logged_is_a_prefix r w s Hl) as (rest & E). exists rest. split; [exact E|]. intros -> D.
  rewrite (C89_podman_logs_everything w s Hl D) in E. apply (f_equal (@length _)) in E. rewrite app_length in E. destruct rest; [reflexivity|]. cbn in E. lia.
Qed.
Open Scope nat_scope.

(* ------------------------------------------------------------------ *)
(** * What does not hold *)
(** With Docker and with the shell a task that succeeds can have an empty log although it printed: its run returns and closes
    the reader before the copying goroutine has read; and that goroutine can never read afterwards. *)
Theorem C89_tail_is_lost_refuted : forall r c, r <> Podman -> exists s, ltruns r lt0 [] s /\ lt_ended s = Some true /\ lt_out s = c /\
  forall w' s', ltruns r s w' s' -> w' = [].
Proof.
  intros r c R. exists (mkLt c c [] [] true true false (Some true)). split; [|split; [reflexivity|split; [reflexivity|]]].
  - change (@nil bytes) with ((([] ++ []) ++ []) ++ @nil bytes). eapply ltr_step; [eapply ltr_step; [eapply ltr_step; [apply ltr_nil|]|]|].
    + apply (l_print r lt0 c). reflexivity.
    + apply l_exit.
    + apply l_done; [exact R|reflexivity|reflexivity].
  - intros w' s' H. enough (A : w' = [] /\ lt_held s' = [] /\ lt_closed s' = true) by apply A.
    remember (mkLt c c [] [] true true false (Some true)) as s0 eqn:E0. induction H as [s0|s0 w s1 w1 s2 Hr IH Hs]; subst; [auto|].
    destruct (IH eq_refl) as (-> & Hh & Hc). clear IH. destruct Hs; cbn in *; auto; congruence.
Qed.
Print Assumptions C89_logged_is_a_prefix.
Print Assumptions C89_podman_logs_everything.
Print Assumptions C89_complete_if_copied.
Print Assumptions C89_read_is_a_prefix.
Print Assumptions C89_tail_is_lost_refuted.

(** Non-vacuity: podman prints "ab" in two pieces and ends well *)
Example C89_nonvacuous : exists s, ltruns Podman lt0 [["a"]; ["b"]]%char s /\ lt_ended s = Some true /\ lt_out s = ["a"; "b"]%char.
Proof.
  set (o := ["a"; "b"]%char). set (a := ["a"]%char). set (b := ["b"]%char).
  assert (S : forall s w s1 w1 w' s2, ltruns Podman s w s1 -> ltstep Podman s1 w1 s2 -> w' = w ++ w1 -> ltruns Podman s w' s2)
    by (intros; subst; eapply ltr_step; eassumption).
  assert (S1 : ltruns Podman lt0 [] (mkLt o o [] [] false false false None)).
  { eapply S; [apply ltr_nil| |reflexivity]. exact (l_print Podman lt0 o eq_refl). }
  assert (S2 : ltruns Podman lt0 [] (mkLt o b a [] false false false None)).
  { eapply S; [exact S1| |reflexivity]. apply (l_read Podman (mkLt o o [] [] false false false None) a b); try reflexivity. discriminate. }
  assert (S3 : ltruns Podman lt0 [a] (mkLt o b [] a false false false None)).
  { eapply S; [exact S2| |]. apply (l_write Podman (mkLt o b a [] false false false None)); discriminate. reflexivity. }
  assert (S4 : ltruns Podman lt0 [a] (mkLt o b [] a true false false None)).
  { eapply S; [exact S3| |]. apply l_exit. reflexivity. }
  assert (S5 : ltruns Podman lt0 [a] (mkLt o [] b a true false false None)).
  { eapply S; [exact S4| |]. apply (l_read Podman (mkLt o b [] a true false false None) b []); try reflexivity. discriminate. reflexivity. }
  assert (S6 : ltruns Podman lt0 [a; b] (mkLt o [] [] o true false false None)).
  { eapply S; [exact S5| |]. apply (l_write Podman (mkLt o [] b a true false false None)); discriminate. reflexivity. }
  assert (S7 : ltruns Podman lt0 [a; b] (mkLt o [] [] o true false true None)).
  { eapply S; [exact S6| |]. apply (l_eof Podman (mkLt o [] [] o true false false None)); reflexivity. reflexivity. }
  exists (mkLt o [] [] o true true true (Some true)). split; [|split; reflexivity].
  eapply S; [exact S7| |]. apply (l_done_podman Podman (mkLt o [] [] o true false true None)); reflexivity. reflexivity.
Qed.
