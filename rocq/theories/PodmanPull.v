(** C98: images for Podman.  runtime/podman/podman.go:78-92 (NewPodmanRuntime), 205-208 (doRunTask), 434-486 (imagePull,
    puller, doPullRequest, imageExistsLocally).  (Docker's, which prunes and verifies: Images.v, C71.)
    Images are numbers; a command of Podman is one or two steps, and its outcome arbitrary. *)
From Coq Require Import List Bool Arith Lia.
Import ListNotations.

Notation image := nat (only parsing).
(** a call of imagePull: it looks into d.images (435); sends its request (445); waits for the answer (446); has it (447);
    returned, with an error or without *)
Inductive at_call := Looking | Sending | Waiting | Has (ok : bool) | Returned (ok : bool).
(** the goroutine of puller (455-459): in receive; running podman inspect, podman pull for the call; sending the answer *)
Inductive puller := Receiving | Inspecting (i : nat) | Pulling (i : nat) | Telling (i : nat) (ok : bool).
(** [local]: what Podman has; [cache]: d.images; [queue]: d.pullq, of capacity one (81).  For the specification: the images
    Podman ever had; the pulls that succeeded; the calls whose own pull failed *)
Record st := St { calls : list (image * at_call); queue : list nat; pl : puller; local : image -> bool; cache : image -> bool;
                  had : image -> bool; pulled : list image; failed : list nat }.
Definition CAP : nat := 1.
Fixpoint upd {A} (l : list A) (i : nat) (x : A) : list A :=
  match l, i with [] , _ => [] | _ :: r, O => x :: r | y :: r, S i => y :: upd r i x end.
Definition put (f : image -> bool) (m : image) (b : bool) : image -> bool := fun k => if Nat.eqb k m then b else f k.
Definition image_of (s : st) (i : nat) : image := match nth_error (calls s) i with Some (m, _) => m | None => 0 end.
Definition set_call (s : st) (i : nat) (a : at_call) : list (image * at_call) := upd (calls s) i (image_of s i, a).

Section Runtime.
(** whether Podman has a container of that name: podman inspect finds it too (482) *)
Variable container : image -> bool.
(** what others do: a task asks for an image; an image is removed *)
Inductive outside : st -> st -> Prop :=
| o_call : forall s m, outside s (St (calls s ++ [(m, Looking)]) (queue s) (pl s) (local s) (cache s) (had s) (pulled s) (failed s)).
Inductive removal : st -> st -> Prop :=
| o_remove : forall s m, removal s (St (calls s) (queue s) (pl s) (put (local s) m false) (cache s) (had s) (pulled s) (failed s)).
(** what the runtime does *)
Inductive step : st -> st -> Prop :=
(* 435-438 *)
| p_hit : forall s i m, nth_error (calls s) i = Some (m, Looking) -> cache s m = true ->
    step s (St (set_call s i (Returned true)) (queue s) (pl s) (local s) (cache s) (had s) (pulled s) (failed s))
| p_miss : forall s i m, nth_error (calls s) i = Some (m, Looking) -> cache s m = false ->
    step s (St (set_call s i Sending) (queue s) (pl s) (local s) (cache s) (had s) (pulled s) (failed s))
(* 445: waits while the channel is full *)
| p_send : forall s i m, nth_error (calls s) i = Some (m, Sending) -> length (queue s) < CAP ->
    step s (St (set_call s i Waiting) (queue s ++ [i]) (pl s) (local s) (cache s) (had s) (pulled s) (failed s))
(* 456 *)
| p_receive : forall s i q, queue s = i :: q -> pl s = Receiving ->
    step s (St (calls s) q (Inspecting i) (local s) (cache s) (had s) (pulled s) (failed s))
(* 463-466, 480-486 *)
| p_found : forall s i, pl s = Inspecting i -> local s (image_of s i) || container (image_of s i) = true ->
    step s (St (calls s) (queue s) (Telling i true) (local s) (cache s) (had s) (pulled s) (failed s))
(* not there, or the command failed (the error is dropped, 482-484) *)
| p_not_found : forall s i, pl s = Inspecting i ->
    step s (St (calls s) (queue s) (Pulling i) (local s) (cache s) (had s) (pulled s) (failed s))
(* 468-476 *)
| p_pulled : forall s i, pl s = Pulling i ->
    step s (St (calls s) (queue s) (Telling i true) (put (local s) (image_of s i) true) (cache s) (put (had s) (image_of s i) true) (image_of s i :: pulled s) (failed s))
| p_pull_failed : forall s i, pl s = Pulling i ->
    step s (St (calls s) (queue s) (Telling i false) (local s) (cache s) (had s) (pulled s) (i :: failed s))
(* 457, 446: the answer is handed over *)
| p_tell : forall s i ok m, pl s = Telling i ok -> nth_error (calls s) i = Some (m, Waiting) ->
    step s (St (set_call s i (Has ok)) (queue s) Receiving (local s) (cache s) (had s) (pulled s) (failed s))
(* 447-450 *)
| p_return : forall s i ok m, nth_error (calls s) i = Some (m, Has ok) ->
    step s (St (set_call s i (Returned ok)) (queue s) (pl s) (local s) (if ok then put (cache s) m true else cache s) (had s) (pulled s) (failed s)).
(** executions, without removals and with *)
Inductive run : st -> st -> Prop :=
| r_nil : forall s, run s s
| r_step : forall s s1 s2, run s s1 -> step s1 s2 -> run s s2
| r_out : forall s s1 s2, run s s1 -> outside s1 s2 -> run s s2.
Inductive run_any : st -> st -> Prop :=
| ra_nil : forall s, run_any s s
| ra_step : forall s s1 s2, run_any s s1 -> step s1 s2 -> run_any s s2
| ra_out : forall s s1 s2, run_any s s1 -> outside s1 s2 -> run_any s s2
| ra_remove : forall s s1 s2, run_any s s1 -> removal s1 s2 -> run_any s s2.
(** a runtime just made, on a host with the images [f] *)
Definition fresh (f : image -> bool) : st := St [] [] Receiving f (fun _ => false) f [] [].

(* ------------------------------------------------------------------ *)
(** * Proofs *)
Lemma upd_length : forall A (l : list A) i x, length (upd l i x) = length l.
Proof. induction l as [|y l IH]; intros [|i] x; cbn; auto. Qed.
Lemma upd_nth : forall A (l : list A) i x j, i < length l -> nth_error (upd l i x) j = if Nat.eqb j i then Some x else nth_error l j.
Proof. induction l as [|y l IH]; intros [|i] x [|j] L; cbn in *; try lia; try reflexivity. apply IH. lia. Qed.
Lemma some_lt : forall A (l : list A) i x, nth_error l i = Some x -> i < length l.
Proof. intros A l i x H. apply nth_error_Some. congruence. Qed.

Definition busy (p : puller) : list nat := match p with Receiving => [] | Inspecting i | Pulling i | Telling i _ => [i] end.
(** a call that waits is with the puller or in the queue, once; and only such *)
Definition inv (s : st) : Prop :=
  NoDup (busy (pl s) ++ queue s) /\ length (queue s) <= CAP /\
  (forall i, In i (busy (pl s) ++ queue s) <-> exists m, nth_error (calls s) i = Some (m, Waiting)) /\
  (forall m, local s m = true -> had s m = true) /\
  (forall m, cache s m = true -> had s m = true \/ container m = true) /\
  (forall i m, nth_error (calls s) i = Some (m, Has true) \/ nth_error (calls s) i = Some (m, Returned true) \/ (nth_error (calls s) i = Some (m, Waiting) /\ pl s = Telling i true) ->
     had s m = true \/ container m = true) /\
  (forall i m, nth_error (calls s) i = Some (m, Has false) \/ nth_error (calls s) i = Some (m, Returned false) \/ pl s = Telling i false -> In i (failed s)).

Lemma set_nth : forall s i a m b, nth_error (calls s) i = Some (m, b) -> forall j, nth_error (set_call s i a) j = if Nat.eqb j i then Some (m, a) else nth_error (calls s) j.
Proof. intros s i a m b H j. unfold set_call, image_of. rewrite H. apply upd_nth. exact (some_lt _ _ _ _ H). Qed.

(** a call changes but waits neither before nor after *)
Lemma inv_call : forall s i a m b c, inv s -> nth_error (calls s) i = Some (m, b) -> b <> Waiting -> a <> Waiting ->
  (a = Has true \/ a = Returned true -> had s m = true \/ container m = true) ->
  (a = Has false \/ a = Returned false -> In i (failed s)) ->
  (forall m, c m = true -> had s m = true \/ container m = true) ->
  inv (St (set_call s i a) (queue s) (pl s) (local s) c (had s) (pulled s) (failed s)).
Proof.
  intros s i a m b c (N & L & W & H & C & T & F) E NB NA A1 A2 CC. unfold inv; cbn [calls queue pl local cache had pulled failed].
  split; [exact N|]. split; [exact L|]. split; [|split; [exact H|split; [exact CC|split]]].
  - intros j. rewrite W, (set_nth s i a m b E). destruct (Nat.eqb_spec j i) as [->|J]; [|tauto].
    split; intros (m' & K); [rewrite E in K; congruence|injection K as _ K; congruence].
  - intros j m'. rewrite (set_nth s i a m b E). destruct (Nat.eqb_spec j i) as [->|J]; [|apply T].
    intros [K|[K|(K & _)]]; injection K as <- K; [apply A1; auto|apply A1; auto|congruence].
  - intros j m'. rewrite (set_nth s i a m b E). destruct (Nat.eqb_spec j i) as [->|J]; [|apply F].
    intros [K|[K|K]]; [injection K as _ K; apply A2; auto|injection K as _ K; apply A2; auto|exact (F i m (or_intror (or_intror K)))].
Qed.
Lemma inv_step : forall s s', inv s -> step s s' -> inv s'.
Proof.
  intros s s' I S. pose proof I as (N & L & W & H & C & T & F). destruct S as [s i m E K|s i m E K|s i m E K|s i q Q P|s i P K|s i P|s i P|s i P|s i ok m P E|s i ok m E].
  - apply (inv_call s i _ m _ (cache s) I E); try discriminate; [intros _; exact (C m K)|intros [D|D]; discriminate|exact C].
  - apply (inv_call s i _ m _ (cache s) I E); try discriminate; [intros [D|D]; discriminate|intros [D|D]; discriminate|exact C].
  - unfold inv; cbn [calls queue pl local cache had pulled failed].
    assert (NI : ~ In i (busy (pl s) ++ queue s)) by (intros X; apply W in X; destruct X as (m' & X); congruence).
    split; [|split; [|split; [|split; [exact H|split; [exact C|split]]]]].
    + rewrite app_assoc. apply NoDup_rev in N. rewrite <- rev_involutive at 1. apply NoDup_rev. rewrite rev_app_distr. cbn. constructor; [rewrite <- in_rev; exact NI|exact N].
    + rewrite app_length. cbn. unfold CAP in *. lia.
    + intros j. rewrite app_assoc, in_app_iff, W, (set_nth s i _ m _ E). cbn [In]. destruct (Nat.eqb_spec j i) as [->|J].
      * split; [intros _; exists m; reflexivity|intros _; right; left; reflexivity].
      * split; [intros [X|[X|[]]]; [exact X|congruence]|intros X; left; exact X].
    + intros j m'. rewrite (set_nth s i _ m _ E). destruct (Nat.eqb_spec j i) as [->|J]; [|apply T].
      intros [D|[D|(D & D')]]; [discriminate|discriminate|]. exfalso. apply NI. rewrite D'. left. reflexivity.
    + intros j m'. rewrite (set_nth s i _ m _ E). destruct (Nat.eqb_spec j i) as [->|J]; [|apply F].
      intros [D|[D|D]]; [discriminate|discriminate|exact (F i m (or_intror (or_intror D)))].
  - rewrite P, Q in *. cbn [busy app] in *. unfold inv; cbn [calls queue pl local cache had pulled failed busy app].
    split; [exact N|]. split; [cbn in L; lia|]. split; [exact W|]. split; [exact H|]. split; [exact C|]. split.
    + intros j m' [D|[D|(_ & D)]]; [apply (T j); left; exact D|apply (T j); right; left; exact D|discriminate].
    + intros j m' [D|[D|D]]; [apply (F j m'); left; exact D|apply (F j m'); right; left; exact D|discriminate].
  - rewrite P in *. unfold inv; cbn [calls queue pl local cache had pulled failed]. split; [exact N|]. split; [exact L|]. split; [exact W|]. split; [exact H|]. split; [exact C|]. split.
    + intros j m' [D|[D|(D & D')]]; [apply (T j); left; exact D|apply (T j); right; left; exact D|]. injection D' as <-. unfold image_of in K. rewrite D in K.
      apply orb_prop in K. destruct K as [K|K]; [left; exact (H m' K)|right; exact K].
    + intros j m' [D|[D|D]]; [apply (F j m'); left; exact D|apply (F j m'); right; left; exact D|discriminate].
  - rewrite P in *. unfold inv; cbn [calls queue pl local cache had pulled failed]. split; [exact N|]. split; [exact L|]. split; [exact W|]. split; [exact H|]. split; [exact C|]. split.
    + intros j m' [D|[D|(_ & D)]]; [apply (T j); left; exact D|apply (T j); right; left; exact D|discriminate].
    + intros j m' [D|[D|D]]; [apply (F j m'); left; exact D|apply (F j m'); right; left; exact D|discriminate].
  - assert (PU : forall f m x, f m = true -> put f x true m = true) by (intros f m x K; unfold put; destruct (Nat.eqb m x); [reflexivity|exact K]).
    rewrite P in *. unfold inv; cbn [calls queue pl local cache had pulled failed]. split; [exact N|]. split; [exact L|]. split; [exact W|]. split; [|split; [|split]].
    + intros m'. unfold put. destruct (Nat.eqb m' _); [reflexivity|apply H].
    + intros m' K. destruct (C m' K) as [K'|K']; [left; exact (PU _ _ _ K')|right; exact K'].
    + intros j m' [D|[D|(D & D')]].
      * destruct (T j m' (or_introl D)) as [K|K]; [left; exact (PU _ _ _ K)|right; exact K].
      * destruct (T j m' (or_intror (or_introl D))) as [K|K]; [left; exact (PU _ _ _ K)|right; exact K].
      * injection D' as <-. left. unfold put, image_of. rewrite D, Nat.eqb_refl. reflexivity.
    + intros j m' [D|[D|D]]; [apply (F j m'); left; exact D|apply (F j m'); right; left; exact D|discriminate].
  - rewrite P in *. unfold inv; cbn [calls queue pl local cache had pulled failed]. split; [exact N|]. split; [exact L|]. split; [exact W|]. split; [exact H|]. split; [exact C|]. split.
    + intros j m' [D|[D|(_ & D)]]; [apply (T j); left; exact D|apply (T j); right; left; exact D|discriminate].
    + intros j m' [D|[D|D]]; [right; apply (F j m'); left; exact D|right; apply (F j m'); right; left; exact D|]. injection D as <-. left. reflexivity.
  - rewrite P in *. cbn [busy app] in *. inversion N as [|? ? N1 N2]; subst. unfold inv; cbn [calls queue pl local cache had pulled failed busy app].
    split; [exact N2|]. split; [exact L|]. split; [|split; [exact H|split; [exact C|split]]].
    + intros j. rewrite (set_nth s i _ m _ E). destruct (Nat.eqb_spec j i) as [->|J].
      * split; [intros X; destruct (N1 X)|intros (m' & X); discriminate].
      * rewrite <- W. cbn [In]. split; [intros X; right; exact X|intros [X|X]; [congruence|exact X]].
    + intros j m'. rewrite (set_nth s i _ m _ E). destruct (Nat.eqb_spec j i) as [->|J].
      * intros [D|[D|(D & _)]]; [|discriminate|discriminate]. injection D as <- ->. apply (T i). right. right. split; [exact E|reflexivity].
      * intros [D|[D|(_ & D)]]; [apply (T j); left; exact D|apply (T j); right; left; exact D|discriminate].
    + intros j m'. rewrite (set_nth s i _ m _ E). destruct (Nat.eqb_spec j i) as [->|J].
      * intros [D|[D|D]]; [|discriminate|discriminate]. injection D as _ ->. apply (F i m). right. right. reflexivity.
      * intros [D|[D|D]]; [apply (F j m'); left; exact D|apply (F j m'); right; left; exact D|discriminate].
  - apply (inv_call s i _ m _ _ I E); try discriminate.
    + intros [D|D]; [discriminate|]. injection D as ->. apply (T i). left. exact E.
    + intros [D|D]; [discriminate|]. injection D as ->. apply (F i m). left. exact E.
    + destruct ok; [|exact C]. intros m'. unfold put. destruct (Nat.eqb_spec m' m) as [->|J]; [|apply C]. intros _. apply (T i). left. exact E.
Qed.
Lemma inv_out : forall s s', inv s -> outside s s' -> inv s'.
Proof.
  intros s s' (N & L & W & H & C & T & F) O. destruct O as [s m]. unfold inv; cbn [calls queue pl local cache had pulled failed].
  assert (A : forall j m' a, a <> Looking -> (nth_error (calls s ++ [(m, Looking)]) j = Some (m', a) <-> nth_error (calls s) j = Some (m', a))).
  { intros j m' a Na. destruct (Nat.lt_ge_cases j (length (calls s))) as [J|J]; [rewrite nth_error_app1 by exact J; tauto|].
    rewrite nth_error_app2 by exact J. rewrite (proj2 (nth_error_None (calls s) j) J). destruct (j - length (calls s)) as [|[|k]]; cbn; split; intros K; congruence. }
  split; [exact N|]. split; [exact L|]. split; [|split; [exact H|split; [exact C|split]]].
  - intros j. rewrite W. split; intros (m' & K); exists m'; apply A; (exact K || discriminate).
  - intros j m' K. apply (T j). destruct K as [K|[K|(K & K')]]; apply A in K; try discriminate; auto.
  - intros j m' K. apply (F j m'). destruct K as [K|[K|K]]; [apply A in K; try discriminate; auto|apply A in K; try discriminate; auto|auto].
Qed.
Lemma inv_remove : forall s s', inv s -> removal s s' -> inv s'.
Proof.
  intros s s' (N & L & W & H & C & T & F) O. destruct O as [s m]. unfold inv; cbn [calls queue pl local cache had pulled failed].
  split; [exact N|]. split; [exact L|]. split; [exact W|]. split; [|split; [exact C|split; [exact T|exact F]]].
  intros m'. unfold put. destruct (Nat.eqb m' m); [discriminate|apply H].
Qed.
Lemma inv_fresh : forall f, inv (fresh f).
Proof.
  intros f. unfold inv, fresh; cbn. split; [constructor|]. split; [unfold CAP; lia|]. split; [intros i; split; [intros []|intros (m & K); destruct i; discriminate]|].
  split; [auto|]. split; [discriminate|]. split; intros i m K; destruct i; destruct K as [K|[K|K]]; try discriminate; destruct K; discriminate.
Qed.
Lemma inv_any : forall f s, run_any (fresh f) s -> inv s.
Proof.
  intros f s R. remember (fresh f) as s0 eqn:E. induction R as [s|s s1 s2 R IH S|s s1 s2 R IH S|s s1 s2 R IH S]; [subst s; apply inv_fresh|exact (inv_step _ _ (IH E) S)|exact (inv_out _ _ (IH E) S)|exact (inv_remove _ _ (IH E) S)].
Qed.
Lemma run_is_any : forall s s', run s s' -> run_any s s'.
Proof. intros s s' R. induction R; [apply ra_nil|eapply ra_step; eassumption|eapply ra_out; eassumption]. Qed.

(** Whatever happens, a call ends without an error only for an image Podman had (or the name of a container), and with
    one only if its own pull failed: never because of another's. *)
Theorem C98_answers : forall f s i m, run_any (fresh f) s ->
  (nth_error (calls s) i = Some (m, Returned true) -> had s m = true \/ container m = true) /\
  (nth_error (calls s) i = Some (m, Returned false) -> In i (failed s)).
Proof. intros f s i m R. destruct (inv_any f s R) as (_ & _ & _ & _ & _ & T & F). split; intros E; [apply (T i)|apply (F i m)]; right; left; exact E. Qed.

(** While nobody removes images, an image is there when the call has ended without an error (unless a container bears its
    name), and stays. *)
Lemma kept : forall f s, run (fresh f) s -> (forall m, had s m = true -> local s m = true).
Proof.
  intros f s R. remember (fresh f) as s0 eqn:E. induction R as [s|s s1 s2 R IH S|s s1 s2 R IH S]; [subst s; cbn; auto| |destruct S; exact (IH E)].
  specialize (IH E). destruct S; cbn [had local]; try exact IH. intros m. unfold put. destruct (Nat.eqb m _); [reflexivity|apply IH].
Qed.
Theorem C98_image_there : forall f s i m, run (fresh f) s -> nth_error (calls s) i = Some (m, Returned true) -> container m = false -> local s m = true.
Proof.
  intros f s i m R E K. destruct (C98_answers f s i m (run_is_any _ _ R)) as (A & _). destruct (A E) as [A'|A']; [exact (kept f s R m A')|congruence].
Qed.
Theorem C98_stays : forall f s s' m, run (fresh f) s -> local s m = true -> run s s' -> local s' m = true.
Proof.
  intros f s s' m _ L R. induction R as [s|s s1 s2 R IH S|s s1 s2 R IH S]; [exact L| |destruct S; exact (IH L)].
  specialize (IH L). destruct S; cbn [local]; try exact IH. unfold put. destruct (Nat.eqb m _); [reflexivity|exact IH].
Qed.

(** No deadlock, and no call waits for ever: as long as a call has not returned the runtime can do something, and it
    cannot go on doing things without every call having returned: at most nine steps for each call. *)
Definition weight (a : at_call) : nat := match a with Looking => 9 | Sending => 8 | Waiting => 3 | Has _ => 1 | Returned _ => 0 end.
Definition load (s : st) : nat :=
  fold_right (fun c n => weight (snd c) + n) 0 (calls s) + 4 * length (queue s) + match pl s with Receiving => 0 | Inspecting _ => 3 | Pulling _ => 2 | Telling _ _ => 1 end.
Lemma load_set : forall (l : list (image * at_call)) i m a b, nth_error l i = Some (m, b) ->
  fold_right (fun c n => weight (snd c) + n) 0 (upd l i (m, a)) + weight b = fold_right (fun c n => weight (snd c) + n) 0 l + weight a.
Proof.
  induction l as [|[m' x] l IH]; intros [|i] m a b E; cbn in *; try discriminate.
  - injection E as -> ->. lia.
  - specialize (IH i m a b E). lia.
Qed.
Theorem C98_every_call_ends : forall s s', step s s' -> load s' < load s.
Proof.
  intros s s' S. unfold load. destruct S as [s i m E K|s i m E K|s i m E K|s i q Q P|s i P K|s i P|s i P|s i P|s i ok m P E|s i ok m E]; cbn [calls queue pl].
  1,2,3,9,10: pose proof (fun a => load_set (calls s) i m a _ E) as LS; unfold set_call, image_of; rewrite E.
  - specialize (LS (Returned true)). cbn [weight] in LS. lia.
  - specialize (LS Sending). cbn [weight] in LS. lia.
  - specialize (LS Waiting). cbn [weight] in LS. rewrite app_length. cbn [length]. lia.
  - specialize (LS (Has ok)). rewrite P. cbn [weight] in LS. lia.
  - specialize (LS (Returned ok)). cbn [weight] in LS. lia.
  - rewrite P, Q. cbn [length]. lia.
  - rewrite P. lia.
  - rewrite P. lia.
  - rewrite P. lia.
  - rewrite P. lia.
Qed.
Theorem C98_never_stuck : forall f s i m a, run_any (fresh f) s -> nth_error (calls s) i = Some (m, a) -> (forall ok, a <> Returned ok) -> exists s', step s s'.
Proof.
  intros f s i m a R E NR. destruct (inv_any f s R) as (N & L & W & _).
  destruct (pl s) as [|j|j|j ok] eqn:P.
  - destruct (queue s) as [|j q] eqn:Q; [|eexists; exact (p_receive s j q Q P)].
    destruct a as [| | |ok|ok].
    + destruct (cache s m) eqn:C; eexists; [exact (p_hit s i m E C)|exact (p_miss s i m E C)].
    + eexists. apply (p_send s i m E). rewrite Q. cbn. unfold CAP. lia.
    + exfalso. apply (proj2 (W i)). exists m. exact E.
    + eexists. exact (p_return s i ok m E).
    + destruct (NR ok eq_refl).
  - eexists. exact (p_not_found s j P).
  - eexists. exact (p_pulled s j P).
  - destruct (proj1 (W j) (or_introl eq_refl)) as (m' & E'). eexists. exact (p_tell s j ok m' P E').
Qed.
End Runtime.
Print Assumptions C98_answers.
Print Assumptions C98_image_there.
Print Assumptions C98_stays.
Print Assumptions C98_every_call_ends.
Print Assumptions C98_never_stuck.

(* ------------------------------------------------------------------ *)
(** * What does not hold *)
Definition nothing (m : image) : bool := false.
(** one call for image 7, pulled and returned *)
Definition s_done : st := St [(7, Returned true)] [] Receiving (put nothing 7 true) (put nothing 7 true) (put nothing 7 true) [7] [].
Lemma s_done_run : run nothing (fresh nothing) s_done.
Proof.
  pose proof (r_out nothing _ _ _ (r_nil nothing (fresh nothing)) (o_call (fresh nothing) 7)) as R; cbv beta iota zeta delta [set_call image_of upd calls queue pl local cache had pulled failed nth_error app fresh] in R.
  match type of R with run ?c _ ?x => pose proof (r_step c _ _ _ R (p_miss c x 0 7 eq_refl eq_refl)) as R1 end; cbv beta iota zeta delta [set_call image_of upd calls queue pl local cache had pulled failed nth_error app fresh] in R1.
  match type of R1 with run ?c _ ?x => pose proof (r_step c _ _ _ R1 (p_send c x 0 7 eq_refl (Nat.lt_0_succ 0))) as R2 end; cbv beta iota zeta delta [set_call image_of upd calls queue pl local cache had pulled failed nth_error app fresh] in R2.
  match type of R2 with run ?c _ ?x => pose proof (r_step c _ _ _ R2 (p_receive c x 0 [] eq_refl eq_refl)) as R3 end; cbv beta iota zeta delta [set_call image_of upd calls queue pl local cache had pulled failed nth_error app fresh] in R3.
  match type of R3 with run ?c _ ?x => pose proof (r_step c _ _ _ R3 (p_not_found c x 0 eq_refl)) as R4 end; cbv beta iota zeta delta [set_call image_of upd calls queue pl local cache had pulled failed nth_error app fresh] in R4.
  match type of R4 with run ?c _ ?x => pose proof (r_step c _ _ _ R4 (p_pulled c x 0 eq_refl)) as R5 end; cbv beta iota zeta delta [set_call image_of upd calls queue pl local cache had pulled failed nth_error app fresh] in R5.
  match type of R5 with run ?c _ ?x => pose proof (r_step c _ _ _ R5 (p_tell c x 0 true 7 eq_refl eq_refl)) as R6 end; cbv beta iota zeta delta [set_call image_of upd calls queue pl local cache had pulled failed nth_error app fresh] in R6.
  match type of R6 with run ?c _ ?x => exact (r_step c _ _ _ R6 (p_return c x 0 true 7 eq_refl)) end.
Qed.
(** d.images is never emptied: once an image has been removed from the host, every later call for it ends at once without
    an error, and without a pull. *)
Theorem C98_removed_refuted : exists s s', run_any nothing (fresh nothing) s /\ local s 7 = false /\
  step nothing s s' /\ calls s' = [(7, Returned true); (7, Returned true)] /\ local s' 7 = false.
Proof.
  pose proof (ra_remove nothing _ _ _ (run_is_any nothing _ _ s_done_run) (o_remove s_done 7)) as R.
  match type of R with run_any _ _ ?x => pose proof (ra_out nothing _ _ _ R (o_call x 7)) as R1 end; cbv beta iota zeta delta [set_call image_of upd calls queue pl local cache had pulled failed nth_error app fresh] in R1.
  match type of R1 with run_any _ _ ?x => exists x; eexists; split; [exact R1|]; split; [reflexivity|];
    split; [exact (p_hit nothing x 1 7 eq_refl eq_refl)|] end. split; reflexivity.
Qed.
Print Assumptions C98_removed_refuted.
(** podman inspect finds containers too: with a container of that name the image is taken to be there. *)
Theorem C98_container_name_refuted : exists container s, run container (fresh nothing) s /\ calls s = [(7, Returned true)] /\ local s 7 = false /\ pulled s = [].
Proof.
  exists (fun m => Nat.eqb m 7).
  pose proof (r_out (fun m => Nat.eqb m 7) _ _ _ (r_nil _ (fresh nothing)) (o_call (fresh nothing) 7)) as R; cbv beta iota zeta delta [set_call image_of upd calls queue pl local cache had pulled failed nth_error app fresh] in R.
  match type of R with run ?c _ ?x => pose proof (r_step c _ _ _ R (p_miss c x 0 7 eq_refl eq_refl)) as R1 end; cbv beta iota zeta delta [set_call image_of upd calls queue pl local cache had pulled failed nth_error app fresh] in R1.
  match type of R1 with run ?c _ ?x => pose proof (r_step c _ _ _ R1 (p_send c x 0 7 eq_refl (Nat.lt_0_succ 0))) as R2 end; cbv beta iota zeta delta [set_call image_of upd calls queue pl local cache had pulled failed nth_error app fresh] in R2.
  match type of R2 with run ?c _ ?x => pose proof (r_step c _ _ _ R2 (p_receive c x 0 [] eq_refl eq_refl)) as R3 end; cbv beta iota zeta delta [set_call image_of upd calls queue pl local cache had pulled failed nth_error app fresh] in R3.
  match type of R3 with run ?c _ ?x => pose proof (r_step c _ _ _ R3 (p_found c x 0 eq_refl eq_refl)) as R4 end; cbv beta iota zeta delta [set_call image_of upd calls queue pl local cache had pulled failed nth_error app fresh] in R4.
  match type of R4 with run ?c _ ?x => pose proof (r_step c _ _ _ R4 (p_tell c x 0 true 7 eq_refl eq_refl)) as R5 end; cbv beta iota zeta delta [set_call image_of upd calls queue pl local cache had pulled failed nth_error app fresh] in R5.
  match type of R5 with run ?c _ ?x => pose proof (r_step c _ _ _ R5 (p_return c x 0 true 7 eq_refl)) as R6 end; cbv beta iota zeta delta [set_call image_of upd calls queue pl local cache had pulled failed nth_error app fresh] in R6.
  eexists. split; [exact R6|]. split; [reflexivity|]. split; reflexivity.
Qed.
Print Assumptions C98_container_name_refuted.
(** Pulls are one at a time and a waiting call does not heed cancellation: while another call's pull runs, a call that
    waits stays where it is whatever else happens. *)
Theorem C98_waits_for_others_refuted : forall container s s' i j m, pl s = Pulling j -> i <> j -> nth_error (calls s) i = Some (m, Waiting) ->
  step container s s' -> nth_error (calls s') i = Some (m, Waiting).
Proof.
  intros container s s' i j m P IJ E S.
  destruct S as [s k m' E' K|s k m' E' K|s k m' E' K|s k q Q P'|s k P' K|s k P'|s k P'|s k P'|s k ok m' P' E'|s k ok m' E']; cbn [calls]; try exact E; try congruence.
  all: rewrite (set_nth s k _ m' _ E'); destruct (Nat.eqb_spec i k) as [->|N]; [rewrite E in E'; congruence|exact E].
Qed.
Print Assumptions C98_waits_for_others_refuted.
Example an_image_pulled : run nothing (fresh nothing) s_done /\ nth_error (calls s_done) 0 = Some (7, Returned true) /\ local s_done 7 = true.
Proof. split; [exact s_done_run|]. split; reflexivity. Qed.
