(** C71: the images of the container runtime: pulling, verification, reuse and pruning.
    runtime/docker/docker.go:137-146 (the count of running tasks), 345-456 (imagePull, puller, doPullRequest, verifyImage),
    469-514 (pruner, prune, imageExistsLocally).
    Modelled: any number of concurrent Runs, the serial puller, the pruner with the mutex, a container engine whose calls
    may fail at any moment and whose images may change behind the runtime's back, time.
    Simplifications: the order of waiting requests is arbitrary (the code: a channel of capacity one); time.Now and the
    event it belongs to are one step; what a pull prints is not modelled; runs are numbered in the order they start. *)
From Coq Require Import List ZArith String Bool Lia.
Import ListNotations.
Open Scope string_scope.
Open Scope list_scope.
Open Scope Z_scope.

(* ------------------------------------------------------------------ *)
(** * Model *)

(** docker.go:57-68: what a task asks for. The credentials come from the task's registry (docker.go:352-357), empty if none. *)
Record req := Req { r_image : string; r_user : string; r_pass : string }.

(** What can be observed, with the time. [n] numbers the requests. *)
Inductive event :=
| Started (i : nat)                              (* Run called *)
| Finished (i : nat)                             (* Run returned *)
| Asked (n i : nat) (q : req)                    (* run i asks for an image *)
| Replied (n : nat) (ok : bool)                  (* and is answered *)
| Found (x : string)                             (* ImageList has a tag equal to x *)
| Pulled (n : nat) (user pass : string) (x : string) (ok : bool)  (* ImagePull with credentials, and copying its output *)
| Tested (x : string) (ok : bool)                (* ContainerCreate of the test container *)
| Untested                                       (* ContainerRemove of the test container *)
| Removed (x : string) (force ok : bool)         (* ImageRemove *)
| PruneStart | PruneEnd (ok : bool).

(** docker.go:378-432: the stages of one pull request *)
Inductive stage :=
| SLook          (* 380-382: is it in the map? *)
| STouch         (* 383-387: refresh the time *)
| SList          (* 390-393 *)
| SPull          (* 394-424 *)
| SVerify        (* 428-429, 442-448 *)
| SUntest        (* 451-455: the deferred removal of the test container *)
| SBad           (* 430-434 *)
| SStore         (* 438-440 *)
| SReply (ok : bool). (* 373 *)

(** one Run: 137-206. [u_req]: the request it is blocked on; [u_failed]: a request failed, so that Run only returns *)
Record run := URun { u_active : bool; u_req : option nat; u_failed : bool }.

Record st := St {
  now : Z;
  images : string -> option Z;              (* rt.images *)
  daemon : string -> bool;                  (* the tags the container engine has *)
  runs : list run;                          (* rt.tasks is the number of active ones *)
  reqs : list (nat * req);                  (* request number |-> run and request *)
  puller : option (nat * stage);            (* the request being handled *)
  pruner : option (Z * list string);        (* prune holds the mutex: when it started, the entries already looked at *)
  hist : list (Z * event)                   (* newest first *)
}.

Definition init (local : string -> bool) : st := St 0 (fun _ => None) local [] [] None None [].

(* updates *)
Definition upd {A} (f : string -> A) (x : string) (v : A) : string -> A := fun y => if String.eqb y x then v else f y.
Definition log (e : event) (s : st) : st :=
  St (now s) (images s) (daemon s) (runs s) (reqs s) (puller s) (pruner s) ((now s, e) :: hist s).
Definition set_images f (s : st) : st := St (now s) f (daemon s) (runs s) (reqs s) (puller s) (pruner s) (hist s).
Definition set_daemon f (s : st) : st := St (now s) (images s) f (runs s) (reqs s) (puller s) (pruner s) (hist s).
Definition set_runs f (s : st) : st := St (now s) (images s) (daemon s) f (reqs s) (puller s) (pruner s) (hist s).
Definition set_reqs f (s : st) : st := St (now s) (images s) (daemon s) (runs s) f (puller s) (pruner s) (hist s).
Definition set_puller f (s : st) : st := St (now s) (images s) (daemon s) (runs s) (reqs s) f (pruner s) (hist s).
Definition set_pruner f (s : st) : st := St (now s) (images s) (daemon s) (runs s) (reqs s) (puller s) f (hist s).
Definition set_now f (s : st) : st := St f (images s) (daemon s) (runs s) (reqs s) (puller s) (pruner s) (hist s).
Fixpoint set_nth {A} (l : list A) (i : nat) (a : A) : list A :=
  match l, i with
  | [], _ => []
  | _ :: l, O => a :: l
  | x :: l, S i => x :: set_nth l i a
  end.

Section Machine.
Variable ttl : Z.                                        (* rt.imageTTL, 72 hours by default (docker.go:38, 128-130) *)
Variable verify : bool.                                  (* rt.imageVerify *)
Variable domain_of : string -> option string.            (* parseRef (reference.go); None: not a reference *)
Variable config_creds : string -> option (string * string).  (* getRegistryCredentials (auth.go); None: an error *)

(** docker.go:395-412: the credentials of a pull; [None]: an error before any pull *)
Definition auth (q : req) : option (string * string) :=
  if String.eqb (r_user q) "" then
    match domain_of (r_image q) with
    | None => None
    | Some d => if String.eqb d "" then Some ("", "") else config_creds d
    end
  else Some (r_user q, r_pass q).

(** docker.go:138-140, 476-480: rt.tasks > 0 *)
Definition busy (s : st) : bool := existsb u_active (runs s).

Inductive step : st -> st -> Prop :=
| st_tick s d : 0 <= d -> step s (set_now (now s + d) s)
(** other programs add and remove images *)
| st_other s f : step s (set_daemon f s)
(** docker.go:138-140; needs the mutex *)
| st_start s : pruner s = None ->
    step s (log (Started (List.length (runs s))) (set_runs (runs s ++ [URun true None false]) s))
(** docker.go:142-146; Run returns for any reason, but not while it waits for an image; needs the mutex *)
| st_finish s i u : pruner s = None -> nth_error (runs s) i = Some u -> u_active u = true -> u_req u = None ->
    step s (log (Finished i) (set_runs (set_nth (runs s) i (URun false None (u_failed u))) s))
(** docker.go:345-361: from the task, a pre task, a post task or a sidecar *)
| st_ask s i u q : nth_error (runs s) i = Some u -> u_active u = true -> u_req u = None -> u_failed u = false ->
    step s (log (Asked (List.length (reqs s)) i q)
             (set_runs (set_nth (runs s) i (URun true (Some (List.length (reqs s))) false)) (set_reqs (reqs s ++ [(i, q)]) s)))
(** docker.go:365-373: one at a time *)
| st_take s n i q u : puller s = None -> nth_error (reqs s) n = Some (i, q) ->
    nth_error (runs s) i = Some u -> u_req u = Some n ->
    step s (set_puller (Some (n, SLook)) s)
(** docker.go:379-382; needs the mutex *)
| st_look s n i q : puller s = Some (n, SLook) -> nth_error (reqs s) n = Some (i, q) -> pruner s = None ->
    step s (set_puller (Some (n, match images s (r_image q) with Some _ => STouch | None => SList end)) s)
(** docker.go:383-387; needs the mutex *)
| st_touch s n i q : puller s = Some (n, STouch) -> nth_error (reqs s) n = Some (i, q) -> pruner s = None ->
    step s (set_puller (Some (n, SReply true)) (set_images (upd (images s) (r_image q) (Some (now s))) s))
(** docker.go:390-393, 497-514 *)
| st_list_fail s n : puller s = Some (n, SList) -> step s (set_puller (Some (n, SReply false)) s)
| st_list s n i q : puller s = Some (n, SList) -> nth_error (reqs s) n = Some (i, q) ->
    step s (if daemon s (r_image q)
            then log (Found (r_image q)) (set_puller (Some (n, if verify then SVerify else SStore)) s)
            else set_puller (Some (n, SPull)) s)
(** docker.go:395-412 *)
| st_no_auth s n i q : puller s = Some (n, SPull) -> nth_error (reqs s) n = Some (i, q) -> auth q = None ->
    step s (set_puller (Some (n, SReply false)) s)
(** docker.go:414-424; a failed pull may or may not leave an image *)
| st_pull s n i q us pw ok : puller s = Some (n, SPull) -> nth_error (reqs s) n = Some (i, q) -> auth q = Some (us, pw) ->
    step s (log (Pulled n us pw (r_image q) ok)
             (set_puller (Some (n, if ok then (if verify then SVerify else SStore) else SReply false))
               (if ok then set_daemon (upd (daemon s) (r_image q) true) s else s)))
(** docker.go:428-434, 437-456; it uses the context of the request, so that cancelling the task is one way to fail *)
| st_test s n i q ok : puller s = Some (n, SVerify) -> nth_error (reqs s) n = Some (i, q) ->
    step s (log (Tested (r_image q) ok) (set_puller (Some (n, if ok then SUntest else SBad)) s))
| st_untest s n : puller s = Some (n, SUntest) -> step s (log Untested (set_puller (Some (n, SStore)) s))
| st_bad s n i q ok : puller s = Some (n, SBad) -> nth_error (reqs s) n = Some (i, q) ->
    (ok = true -> daemon s (r_image q) = true) ->
    step s (log (Removed (r_image q) true ok) (set_puller (Some (n, SReply false))
             (if ok then set_daemon (upd (daemon s) (r_image q) false) s else s)))
(** docker.go:438-440; needs the mutex *)
| st_store s n i q : puller s = Some (n, SStore) -> nth_error (reqs s) n = Some (i, q) -> pruner s = None ->
    step s (set_puller (Some (n, SReply true)) (set_images (upd (images s) (r_image q) (Some (now s))) s))
(** docker.go:360, 373 *)
| st_reply s n i q u ok : puller s = Some (n, SReply ok) -> nth_error (reqs s) n = Some (i, q) -> nth_error (runs s) i = Some u ->
    step s (log (Replied n ok) (set_puller None (set_runs (set_nth (runs s) i (URun (u_active u) None (negb ok))) s)))
(** docker.go:469-480: every hour; needs the mutex *)
| st_prune s : pruner s = None -> busy s = false -> step s (log PruneStart (set_pruner (Some (now s, [])) s))
(** docker.go:481-482: an entry, in any order, that is not old *)
| st_keep s t0 vis x t : pruner s = Some (t0, vis) -> images s x = Some t -> ~ In x vis -> now s - t <= ttl ->
    step s (set_pruner (Some (t0, x :: vis)) s)
(** docker.go:482-489 *)
| st_remove s t0 vis x t ok : pruner s = Some (t0, vis) -> images s x = Some t -> ~ In x vis -> now s - t > ttl ->
    (ok = true -> daemon s x = true) ->
    step s (if ok
            then log (Removed x false true) (set_pruner (Some (t0, vis)) (set_images (upd (images s) x None)
                   (set_daemon (upd (daemon s) x false) s)))
            else log (PruneEnd false) (log (Removed x false false) (set_pruner None s)))
(** docker.go:491-492 *)
| st_prune_end s t0 vis : pruner s = Some (t0, vis) -> (forall x t, images s x = Some t -> In x vis) ->
    step s (log (PruneEnd true) (set_pruner None s)).

Inductive reachable (local : string -> bool) : st -> Prop :=
| r_init : reachable local (init local)
| r_step s s' : reachable local s -> step s s' -> reachable local s'.

(* ------------------------------------------------------------------ *)
(** * Specification *)
(** Histories are newest first: [late ++ (t, e) :: early] is a history in which e happened at t, after early. *)
Definition happened (e : event) (h : list (Z * event)) : Prop := exists t, In (t, e) h.
Definition removed (x : string) (h : list (Z * event)) : Prop := exists force, happened (Removed x force true) h.
(** run i has begun and not returned *)
Definition running (i : nat) (h : list (Z * event)) : Prop := happened (Started i) h /\ ~ happened (Finished i) h.
(** the image is obtained: it was found on the host or pulled, and the runtime did not remove it since *)
Definition obtained (x : string) (h : list (Z * event)) : Prop :=
  exists late early t e, h = late ++ (t, e) :: early /\ ~ removed x late /\
    (e = Found x \/ exists n us pw, e = Pulled n us pw x true).
(** a test container was created from it, and the runtime did not remove the image since *)
Definition tested (x : string) (h : list (Z * event)) : Prop :=
  exists late early t, h = late ++ (t, Tested x true) :: early /\ ~ removed x late.

(* ------------------------------------------------------------------ *)
(** * Invariants *)
Lemma set_nth_same {A} (l : list A) i a b : nth_error l i = Some b -> nth_error (set_nth l i a) i = Some a.
Proof. revert i. induction l as [|x l IH]; destruct i; cbn; try easy. apply IH. Qed.
Lemma set_nth_other {A} (l : list A) i k a : k <> i -> nth_error (set_nth l i a) k = nth_error l k.
Proof. revert i k. induction l as [|x l IH]; destruct i, k; cbn; try easy. intros H. apply IH. congruence. Qed.
Lemma set_nth_len {A} (l : list A) i a : List.length (set_nth l i a) = List.length l.
Proof. revert i. induction l as [|x l IH]; destruct i; cbn; auto. Qed.
Lemma nth_len {A} (l : list A) i a : nth_error l i = Some a -> (i < List.length l)%nat.
Proof. intros H. apply nth_error_Some. congruence. Qed.
Lemma nth_snoc {A} (l : list A) a k b : nth_error (l ++ [a]) k = Some b <-> nth_error l k = Some b \/ (k = List.length l /\ b = a).
Proof.
  destruct (Nat.lt_ge_cases k (List.length l)) as [H|H].
  - rewrite nth_error_app1 by exact H. split; [now left|]. intros [E|[-> _]]; [exact E|lia].
  - rewrite nth_error_app2 by exact H. split.
    + destruct (k - List.length l)%nat eqn:E; cbn; [|destruct n; discriminate]. intros X. injection X as <-. right. split; [lia|reflexivity].
    + intros [E|[-> ->]]; [apply nth_len in E; lia|]. now rewrite Nat.sub_diag.
Qed.
Lemma happened_cons e t e' h : happened e ((t, e') :: h) <-> e = e' \/ happened e h.
Proof.
  unfold happened. split.
  - intros [t' [E|H]]; [injection E as _ <-; now left|right; eauto].
  - intros [<-|[t' H]]; [exists t; now left|exists t'; now right].
Qed.
Lemma upd_same {A} (f : string -> A) x v : upd f x v x = v.
Proof. unfold upd. now rewrite String.eqb_refl. Qed.
Lemma upd_other {A} (f : string -> A) x y v : y <> x -> upd f x v y = f y.
Proof. intros H. unfold upd. now rewrite (proj2 (String.eqb_neq y x)). Qed.

Record InvA (s : st) : Prop := {
  a_req : forall i u n, nth_error (runs s) i = Some u -> u_req u = Some n ->
            u_active u = true /\ exists q, nth_error (reqs s) n = Some (i, q);
  a_pull : forall n g, puller s = Some (n, g) ->
            exists i q u, nth_error (reqs s) n = Some (i, q) /\ nth_error (runs s) i = Some u /\ u_req u = Some n;
  a_prune : pruner s <> None -> busy s = false;
  a_started : forall i, happened (Started i) (hist s) <-> exists u, nth_error (runs s) i = Some u;
  a_finished : forall i, happened (Finished i) (hist s) <-> exists u, nth_error (runs s) i = Some u /\ u_active u = false;
  a_asked : forall n i q, happened (Asked n i q) (hist s) <-> nth_error (reqs s) n = Some (i, q);
  a_owner : forall n i q, nth_error (reqs s) n = Some (i, q) -> exists u, nth_error (runs s) i = Some u;
  a_replied : forall n ok, happened (Replied n ok) (hist s) -> (n < List.length (reqs s))%nat /\
            (forall i u, nth_error (runs s) i = Some u -> u_req u <> Some n);
  a_now : forall t e, In (t, e) (hist s) -> t <= now s
}.

Lemma busy_spec s : busy s = false -> forall i u, nth_error (runs s) i = Some u -> u_active u = false.
Proof.
  unfold busy. intros H i u E. apply nth_error_In in E. destruct (u_active u) eqn:Eu; [|reflexivity].
  assert (X : existsb u_active (runs s) = true) by (apply existsb_exists; eauto). congruence.
Qed.
(** while the pruner works no request is being handled *)
Lemma prune_idle s : InvA s -> pruner s <> None -> puller s = None.
Proof.
  intros I H. destruct (puller s) as [[n g]|] eqn:E; [|reflexivity]. exfalso.
  destruct (a_pull s I n g E) as (i & q & u & _ & Eu & Er). destruct (a_req s I i u n Eu Er) as [Ha _].
  rewrite (busy_spec s (a_prune s I H) i u Eu) in Ha. discriminate.
Qed.

Definition boring (e : event) : Prop :=
  match e with Started _ | Finished _ | Asked _ _ _ | Replied _ _ => False | _ => True end.
Lemma happened_app e h1 h2 : happened e (h1 ++ h2) <-> happened e h1 \/ happened e h2.
Proof.
  unfold happened. split.
  - intros [t H]. apply in_app_or in H as [H|H]; eauto.
  - intros [[t H]|[t H]]; exists t; apply in_or_app; auto.
Qed.
(** steps that leave the runs and the requests alone *)
Lemma invA_frame s s' ex : InvA s -> runs s' = runs s -> reqs s' = reqs s ->
  (forall n g, puller s' = Some (n, g) -> exists g', puller s = Some (n, g')) ->
  (pruner s' <> None -> busy s = false) -> hist s' = ex ++ hist s -> (forall t e, In (t, e) ex -> t <= now s' /\ boring e) ->
  now s <= now s' -> InvA s'.
Proof.
  intros I Er Eq Hp Hr Eh Hb Hn.
  assert (Hh : forall e, ~ boring e -> happened e (hist s') <-> happened e (hist s)).
  { intros e He. rewrite Eh, happened_app. split; [|now right]. intros [[t Hin]|H]; [|exact H]. destruct (He (proj2 (Hb t e Hin))). }
  constructor; rewrite ?Er, ?Eq.
  - apply (a_req s I).
  - intros n g E. destruct (Hp n g E) as [g' E']. exact (a_pull s I n g' E').
  - intros H. unfold busy. rewrite Er. exact (Hr H).
  - intros i. rewrite (Hh (Started i)) by (cbn; auto). apply (a_started s I).
  - intros i. rewrite (Hh (Finished i)) by (cbn; auto). apply (a_finished s I).
  - intros n i q. rewrite (Hh (Asked n i q)) by (cbn; auto). apply (a_asked s I).
  - apply (a_owner s I).
  - intros n ok H. apply (Hh (Replied n ok)) in H; [|cbn; auto]. exact (a_replied s I n ok H).
  - intros t e. rewrite Eh. intros H. apply in_app_or in H as [H|H]; [apply (Hb t e H)|]. pose proof (a_now s I t e H). lia.
Qed.

Lemma nth_set_cases {A} (l : list A) i a b k c : nth_error l i = Some b -> nth_error (set_nth l i a) k = Some c ->
  (k = i /\ c = a) \/ (k <> i /\ nth_error l k = Some c).
Proof.
  intros E H. destruct (Nat.eq_dec k i) as [->|N].
  - left. rewrite (set_nth_same l i a b E) in H. injection H as <-. auto.
  - right. now rewrite set_nth_other in H.
Qed.

Lemma invA_step s s' : InvA s -> step s s' -> InvA s'.
Proof.
  intros I St. destruct St.
  - apply (invA_frame s _ []); cbn; try easy; eauto; try lia. intros H1. exact (a_prune s I H1).
  - apply (invA_frame s _ []); cbn; try easy; eauto; try lia. intros H1. exact (a_prune s I H1).
  - (* start *)
    constructor; cbn.
    + intros i u n E Er. apply nth_snoc in E as [E|[-> ->]]; [exact (a_req s I i u n E Er)|discriminate].
    + intros n g E. destruct (a_pull s I n g E) as (i & q & u & E1 & E2 & E3). exists i, q, u. rewrite nth_snoc. auto.
    + congruence.
    + intros i. rewrite happened_cons, (a_started s I). split.
      * intros [E|[u E]]; [injection E as ->; exists (URun true None false)|exists u]; apply nth_snoc; auto.
      * intros [u E]. apply nth_snoc in E as [E|[-> ->]]; [right; eauto|now left].
    + intros i. rewrite happened_cons, (a_finished s I). split.
      * intros [E|[u [E Ef]]]; [discriminate|]. exists u. rewrite nth_snoc. auto.
      * intros [u [E Ef]]. apply nth_snoc in E as [E|[-> ->]]; [right; eauto|discriminate].
    + intros n i q. rewrite happened_cons, (a_asked s I). intuition discriminate.
    + intros n i q E. destruct (a_owner s I n i q E) as [u Eu]. exists u. rewrite nth_snoc. auto.
    + intros n ok H1. rewrite happened_cons in H1. destruct H1 as [E|H1]; [discriminate|]. destruct (a_replied s I n ok H1) as [L N]. split; [exact L|].
      intros i u E. apply nth_snoc in E as [E|[-> ->]]; [eauto|discriminate].
    + intros t e [E|H1]; [injection E as <- <-; lia|exact (a_now s I t e H1)].
  - (* finish *)
    assert (Hreq : forall k v n, nth_error (set_nth (runs s) i (URun false None (u_failed u))) k = Some v -> u_req v = Some n ->
              nth_error (runs s) k = Some v).
    { intros k v n E Er. apply (nth_set_cases _ _ _ u) in E as [[-> ->]|[Nk E]]; [discriminate|exact E|exact H0]. }
    constructor; cbn.
    + intros k v n E Er. exact (a_req s I k v n (Hreq k v n E Er) Er).
    + intros n g E. destruct (a_pull s I n g E) as (k & q & v & E1 & E2 & E3). exists k, q, v.
      rewrite set_nth_other; [auto|]. intros ->. congruence.
    + congruence.
    + intros k. rewrite happened_cons, (a_started s I). split.
      * intros [E|[v E]]; [discriminate|]. destruct (Nat.eq_dec k i) as [->|Nk]; [rewrite (set_nth_same _ _ _ u H0); eauto|rewrite set_nth_other by exact Nk; eauto].
      * intros [v E]. right. apply (nth_set_cases _ _ _ u) in E as [[-> ->]|[Nk E]]; eauto.
    + intros k. rewrite happened_cons, (a_finished s I). split.
      * intros [E|[v [E Ef]]].
        -- injection E as ->. rewrite (set_nth_same _ _ _ u H0). eexists. split; reflexivity.
        -- destruct (Nat.eq_dec k i) as [->|Nk]; [rewrite (set_nth_same _ _ _ u H0); eexists; split; reflexivity|rewrite set_nth_other by exact Nk; eauto].
      * intros [v [E Ef]]. apply (nth_set_cases _ _ _ u) in E as [[-> ->]|[Nk E]]; [now left|right; eauto|exact H0].
    + intros n k q. rewrite happened_cons, (a_asked s I). intuition discriminate.
    + intros n k q E. destruct (a_owner s I n k q E) as [v Ev].
      destruct (Nat.eq_dec k i) as [->|Nk]; [rewrite (set_nth_same _ _ _ u H0); eauto|rewrite set_nth_other by exact Nk; eauto].
    + intros n ok H3. rewrite happened_cons in H3. destruct H3 as [E|H3]; [discriminate|]. destruct (a_replied s I n ok H3) as [L N]. split; [exact L|].
      intros k v E Er. exact (N k v (Hreq k v n E Er) Er).
    + intros t e [E|H3]; [injection E as <- <-; lia|exact (a_now s I t e H3)].
  - (* ask *)
    constructor; cbn.
    + intros k v n E Er. apply (nth_set_cases _ _ _ u) in E as [[-> ->]|[Nk E]]; [| |exact H].
      * injection Er as <-. split; [reflexivity|]. exists q. apply nth_snoc. auto.
      * destruct (a_req s I k v n E Er) as [Ha [q' Eq]]. split; [exact Ha|]. exists q'. apply nth_snoc. auto.
    + intros n g E. destruct (a_pull s I n g E) as (k & q' & v & E1 & E2 & E3). exists k, q', v.
      rewrite nth_snoc, set_nth_other; [auto|]. intros ->. congruence.
    + intros Hp. exfalso. rewrite (busy_spec s (a_prune s I Hp) i u H) in H0. discriminate.
    + intros k. rewrite happened_cons, (a_started s I). split.
      * intros [E|[v E]]; [discriminate|]. destruct (Nat.eq_dec k i) as [->|Nk]; [rewrite (set_nth_same _ _ _ u H); eauto|rewrite set_nth_other by exact Nk; eauto].
      * intros [v E]. right. apply (nth_set_cases _ _ _ u) in E as [[-> ->]|[Nk E]]; eauto.
    + intros k. rewrite happened_cons, (a_finished s I). split.
      * intros [E|[v [E Ef]]]; [discriminate|]. destruct (Nat.eq_dec k i) as [->|Nk]; [congruence|]. rewrite set_nth_other by exact Nk. eauto.
      * intros [v [E Ef]]. right. apply (nth_set_cases _ _ _ u) in E as [[-> ->]|[Nk E]]; [discriminate|eauto|exact H].
    + intros n k q'. rewrite happened_cons, (a_asked s I), nth_snoc. split.
      * intros [E|E]; [injection E as -> -> ->; right; auto|auto].
      * intros [E|[-> E]]; [auto|]. injection E as -> ->. now left.
    + intros n k q' E.
      assert (E' : exists v, nth_error (runs s) k = Some v).
      { apply nth_snoc in E as [E|[-> E]]; [exact (a_owner s I n k q' E)|]. injection E as -> ->. eauto. }
      destruct E' as [v Ev]. destruct (Nat.eq_dec k i) as [->|Nk]; [rewrite (set_nth_same _ _ _ u H); eauto|rewrite set_nth_other by exact Nk; eauto].
    + intros n ok H3. rewrite happened_cons in H3. destruct H3 as [E|H3]; [discriminate|]. destruct (a_replied s I n ok H3) as [L N].
      rewrite app_length. cbn. split; [lia|]. intros k v E Er. apply (nth_set_cases _ _ _ u) in E as [[-> ->]|[Nk E]]; [| |exact H].
      * injection Er as <-. lia.
      * exact (N k v E Er).
    + intros t e [E|H3]; [injection E as <- <-; lia|exact (a_now s I t e H3)].
  - (* take *)
    constructor; cbn; try apply I.
    + intros n0 g E. injection E as <- <-. exists i, q, u. auto.
  - (* look *) apply (invA_frame s _ []); cbn; try easy; eauto; try lia; try congruence. intros n0 g E. injection E as <- _. eauto.
  - (* touch *) apply (invA_frame s _ []); cbn; try easy; eauto; try lia; try congruence. intros n0 g E. injection E as <- _. eauto.
  - (* list *) apply (invA_frame s _ []); cbn; try easy; eauto; try lia. intros n0 g E. injection E as <- _. eauto. intros Hp; exact (a_prune s I Hp).
  - destruct (daemon s (r_image q)).
    + apply (invA_frame s _ [(now s, Found (r_image q))]); cbn; try easy; eauto; try lia.
      * intros n0 g E. injection E as <- _. eauto. * intros Hp; exact (a_prune s I Hp).
      * intros t e [E|[]]. injection E as <- <-. split; [lia|exact Logic.I].
    + apply (invA_frame s _ []); cbn; try easy; eauto; try lia. intros n0 g E. injection E as <- _. eauto. intros Hp; exact (a_prune s I Hp).
  - apply (invA_frame s _ []); cbn; try easy; eauto; try lia. intros n0 g E. injection E as <- _. eauto. intros Hp; exact (a_prune s I Hp).
  - (* pull *)
    apply (invA_frame s _ [(now s, Pulled n us pw (r_image q) ok)]); destruct ok; cbn; try easy; eauto; try lia;
    try (intros n0 g E; injection E as <- _; eauto; fail); try (intros Hp; exact (a_prune s I Hp));
    (intros t e [E|[]]; injection E as <- <-; split; [lia|exact Logic.I]).
  - (* test *)
    apply (invA_frame s _ [(now s, Tested (r_image q) ok)]); cbn; try easy; eauto; try lia;
    try (intros n0 g E; injection E as <- _; eauto; fail); try (intros Hp; exact (a_prune s I Hp));
    (intros t e [E|[]]; injection E as <- <-; split; [lia|exact Logic.I]).
  - apply (invA_frame s _ [(now s, Untested)]); cbn; try easy; eauto; try lia;
    try (intros n0 g E; injection E as <- _; eauto; fail); try (intros Hp; exact (a_prune s I Hp));
    (intros t e [E|[]]; injection E as <- <-; split; [lia|exact Logic.I]).
  - apply (invA_frame s _ [(now s, Removed (r_image q) true ok)]); destruct ok; cbn; try easy; eauto; try lia;
    try (intros n0 g E; injection E as <- _; eauto; fail); try (intros Hp; exact (a_prune s I Hp));
    (intros t e [E|[]]; injection E as <- <-; split; [lia|exact Logic.I]).
  - (* store *) apply (invA_frame s _ []); cbn; try easy; eauto; try lia; try congruence. intros n0 g E. injection E as <- _. eauto.
  - (* reply *)
    destruct (a_pull s I n _ H) as (i' & q' & u' & E1 & E2 & E3). rewrite H0 in E1. injection E1 as <- <-. rewrite H1 in E2. injection E2 as <-.
    assert (Hreq : forall k v m, nth_error (set_nth (runs s) i (URun (u_active u) None (negb ok))) k = Some v -> u_req v = Some m ->
              nth_error (runs s) k = Some v /\ k <> i).
    { intros k v m E Er. apply (nth_set_cases _ _ _ u) in E as [[-> ->]|[Nk E]]; [discriminate|auto|exact H1]. }
    constructor; cbn.
    + intros k v m E Er. exact (a_req s I k v m (proj1 (Hreq k v m E Er)) Er).
    + intros n0 g E. discriminate.
    + intros Hp. destruct (a_req s I i u n H1 E3) as [Ha _]. rewrite (busy_spec s (a_prune s I Hp) i u H1) in Ha. discriminate.
    + intros k. rewrite happened_cons, (a_started s I). split.
      * intros [E|[v E]]; [discriminate|]. destruct (Nat.eq_dec k i) as [->|Nk]; [rewrite (set_nth_same _ _ _ u H1); eauto|rewrite set_nth_other by exact Nk; eauto].
      * intros [v E]. right. apply (nth_set_cases _ _ _ u) in E as [[-> ->]|[Nk E]]; eauto.
    + intros k. rewrite happened_cons, (a_finished s I). split.
      * intros [E|[v [E Ef]]]; [discriminate|]. destruct (Nat.eq_dec k i) as [->|Nk].
        -- rewrite (set_nth_same _ _ _ u H1). eexists. split; [reflexivity|]. cbn. congruence.
        -- rewrite set_nth_other by exact Nk. eauto.
      * intros [v [E Ef]]. right. apply (nth_set_cases _ _ _ u) in E as [[-> ->]|[Nk E]]; [exists u; auto|eauto|exact H1].
    + intros m k q'. rewrite happened_cons, (a_asked s I). intuition discriminate.
    + intros m k q' E. destruct (a_owner s I m k q' E) as [v Ev].
      destruct (Nat.eq_dec k i) as [->|Nk]; [rewrite (set_nth_same _ _ _ u H1); eauto|rewrite set_nth_other by exact Nk; eauto].
    + intros m ok' H3. rewrite happened_cons in H3. destruct H3 as [E|H3].
      * injection E as -> ->. split; [exact (nth_len _ _ _ H0)|]. intros k v E Er. destruct (Hreq k v n E Er) as [Ev Nk].
        destruct (a_req s I k v n Ev Er) as [_ [q2 Eq]]. congruence.
      * destruct (a_replied s I m ok' H3) as [L N]. split; [exact L|]. intros k v E Er. exact (N k v (proj1 (Hreq k v m E Er)) Er).
    + intros t e [E|H3]; [injection E as <- <-; lia|exact (a_now s I t e H3)].
  - (* prune *)
    apply (invA_frame s _ [(now s, PruneStart)]); cbn; try easy; eauto; try lia;
    (intros t e [E|[]]; injection E as <- <-; split; [lia|exact Logic.I]).
  - apply (invA_frame s _ []); cbn; try easy; eauto; try lia. intros _. apply (a_prune s I). congruence.
  - destruct ok.
    + apply (invA_frame s _ [(now s, Removed x false true)]); cbn; try easy; eauto; try lia.
      * intros _. apply (a_prune s I). congruence.
      * intros t1 e [E|[]]; injection E as <- <-; split; [lia|exact Logic.I].
    + apply (invA_frame s _ [(now s, PruneEnd false); (now s, Removed x false false)]); cbn; try easy; eauto; try lia.
      intros t1 e [E|[E|[]]]; injection E as <- <-; split; try lia; exact Logic.I.
  - apply (invA_frame s _ [(now s, PruneEnd true)]); cbn; try easy; eauto; try lia.
    intros t1 e [E|[]]; injection E as <- <-; split; [lia|exact Logic.I].
Qed.

Lemma invA_init l : InvA (init l).
Proof.
  assert (N : forall A (k : nat) (a : A), nth_error (@nil A) k <> Some a) by (intros A [|k] a; discriminate).
  assert (X : forall e, ~ happened e []) by (intros e [t []]).
  constructor; cbn.
  - intros i u n E. destruct (N _ _ _ E).
  - discriminate.
  - reflexivity.
  - intros i. split; [intros H; destruct (X _ H)|intros [u E]; destruct (N _ _ _ E)].
  - intros i. split; [intros H; destruct (X _ H)|intros [u [E _]]; destruct (N _ _ _ E)].
  - intros n i q. split; [intros H; destruct (X _ H)|intros E; destruct (N _ _ _ E)].
  - intros n i q E. destruct (N _ _ _ E).
  - intros n ok H. destruct (X _ H).
  - intros t e [].
Qed.
Lemma invA l s : reachable l s -> InvA s.
Proof. induction 1; [apply invA_init|eauto using invA_step]. Qed.

(* the request the puller handles *)
Definition missing (g : stage) : bool := match g with SList | SPull | SVerify | SUntest | SBad | SStore => true | _ => false end.
Definition present (g : stage) : bool := match g with STouch | SReply true => true | _ => false end.
Definition got (g : stage) : bool := match g with SVerify | SUntest | SStore => true | _ => false end.
Definition checked (g : stage) : bool := match g with SUntest | SStore => true | _ => false end.
Definition checking (g : stage) : bool := match g with SVerify | SUntest | SBad => true | _ => false end.

Record InvB (s : st) : Prop := {
  b_missing : forall n g i q, puller s = Some (n, g) -> nth_error (reqs s) n = Some (i, q) -> missing g = true -> images s (r_image q) = None;
  b_present : forall n g i q, puller s = Some (n, g) -> nth_error (reqs s) n = Some (i, q) -> present g = true -> images s (r_image q) <> None;
  b_got : forall n g i q, puller s = Some (n, g) -> nth_error (reqs s) n = Some (i, q) -> got g = true -> obtained (r_image q) (hist s);
  b_obtained : forall x, images s x <> None -> obtained x (hist s);
  b_checked : verify = true -> forall n g i q, puller s = Some (n, g) -> nth_error (reqs s) n = Some (i, q) -> checked g = true -> tested (r_image q) (hist s);
  b_tested : verify = true -> forall x, images s x <> None -> tested x (hist s);
  b_checking : forall n g, puller s = Some (n, g) -> checking g = true -> verify = true;
  b_bad : forall n i q, puller s = Some (n, SBad) -> nth_error (reqs s) n = Some (i, q) -> happened (Tested (r_image q) false) (hist s)
}.

Lemma removed_cons x t e h : removed x ((t, e) :: h) <-> (exists f, e = Removed x f true) \/ removed x h.
Proof.
  unfold removed. split.
  - intros [f H]. apply happened_cons in H as [<-|H]; eauto.
  - intros [[f ->]|[f H]]; exists f; apply happened_cons; auto.
Qed.
Lemma obtained_cons x t e h : (forall f, e <> Removed x f true) -> obtained x h -> obtained x ((t, e) :: h).
Proof.
  intros N (late & early & t0 & e0 & -> & Hr & He). exists ((t, e) :: late), early, t0, e0. split; [reflexivity|]. split; [|exact He].
  rewrite removed_cons. intros [[f E]|H]; [exact (N f E)|exact (Hr H)].
Qed.
Lemma tested_cons x t e h : (forall f, e <> Removed x f true) -> tested x h -> tested x ((t, e) :: h).
Proof.
  intros N (late & early & t0 & -> & Hr). exists ((t, e) :: late), early, t0. split; [reflexivity|].
  rewrite removed_cons. intros [[f E]|H]; [exact (N f E)|exact (Hr H)].
Qed.
Lemma obtained_now x t e h : (e = Found x \/ exists n us pw, e = Pulled n us pw x true) -> obtained x ((t, e) :: h).
Proof. intros He. exists [], h, t, e. split; [reflexivity|]. split; [intros [f [? []]]|exact He]. Qed.
Lemma tested_now x t h : tested x ((t, Tested x true) :: h).
Proof. exists [], h, t. split; [reflexivity|]. intros [f [? []]]. Qed.

(** the same images, no removal *)
Lemma invB_frame s s' ex : InvA s -> InvB s -> images s' = images s -> hist s' = ex ++ hist s ->
  (forall n i q, nth_error (reqs s) n = Some (i, q) -> nth_error (reqs s') n = Some (i, q)) ->
  (forall x t f, ~ In (t, Removed x f true) ex) ->
  (forall n g, puller s' = Some (n, g) ->
     (g = SLook /\ puller s = None) \/ (puller s = Some (n, g)) \/
     (exists g0 i q, puller s = Some (n, g0) /\ nth_error (reqs s) n = Some (i, q) /\
        (missing g = true -> missing g0 = true \/ images s (r_image q) = None) /\
        (present g = true -> present g0 = true \/ images s (r_image q) <> None) /\
        (got g = true -> got g0 = true \/ obtained (r_image q) (hist s')) /\
        (verify = true -> checked g = true -> checked g0 = true \/ tested (r_image q) (hist s')) /\
        (checking g = true -> verify = true) /\
        (g = SBad -> happened (Tested (r_image q) false) (hist s')))) ->
  (forall n i q, puller s' = Some (n, SLook) -> nth_error (reqs s') n = Some (i, q) -> True) ->
  InvB s'.
Proof.
  intros IA I Ei Eh Hq Hx Hp _.
  assert (Ho : forall x, obtained x (hist s) -> obtained x (hist s')).
  { intros x H. rewrite Eh. clear Eh Hp. induction ex as [|[t e] ex IH]; [exact H|]. cbn. apply obtained_cons.
    - intros f ->. apply (Hx x t f). now left.
    - apply IH. intros y t' f' Hin. apply (Hx y t' f'). now right. }
  assert (Ht : forall x, tested x (hist s) -> tested x (hist s')).
  { intros x H. rewrite Eh. clear Eh Hp. induction ex as [|[t e] ex IH]; [exact H|]. cbn. apply tested_cons.
    - intros f ->. apply (Hx x t f). now left.
    - apply IH. intros y t' f' Hin. apply (Hx y t' f'). now right. }
  assert (Hr : forall n g i q, puller s = Some (n, g) -> nth_error (reqs s') n = Some (i, q) -> nth_error (reqs s) n = Some (i, q)).
  { intros n g i q E E'. destruct (a_pull s IA n g E) as (i0 & q0 & u & E0 & _). rewrite (Hq n i0 q0 E0) in E'. congruence. }
  constructor; rewrite ?Ei.
  - intros n g i q E Eq M. destruct (Hp n g E) as [[-> _]|[E0|(g0 & i0 & q0 & E0 & Eq0 & M1 & _)]]; [discriminate|exact (b_missing s I n g i q E0 (Hr _ _ _ _ E0 Eq) M)|].
    rewrite (Hq _ _ _ Eq0) in Eq. injection Eq as <- <-. destruct (M1 M) as [M0|M0]; [exact (b_missing s I n g0 i0 q0 E0 Eq0 M0)|exact M0].
  - intros n g i q E Eq M. destruct (Hp n g E) as [[-> _]|[E0|(g0 & i0 & q0 & E0 & Eq0 & _ & M1 & _)]]; [discriminate|exact (b_present s I n g i q E0 (Hr _ _ _ _ E0 Eq) M)|].
    rewrite (Hq _ _ _ Eq0) in Eq. injection Eq as <- <-. destruct (M1 M) as [M0|M0]; [exact (b_present s I n g0 i0 q0 E0 Eq0 M0)|exact M0].
  - intros n g i q E Eq M. destruct (Hp n g E) as [[-> _]|[E0|(g0 & i0 & q0 & E0 & Eq0 & _ & _ & M1 & _)]]; [discriminate|exact (Ho _ (b_got s I n g i q E0 (Hr _ _ _ _ E0 Eq) M))|].
    rewrite (Hq _ _ _ Eq0) in Eq. injection Eq as <- <-. destruct (M1 M) as [M0|M0]; [exact (Ho _ (b_got s I n g0 i0 q0 E0 Eq0 M0))|exact M0].
  - intros x H. exact (Ho x (b_obtained s I x H)).
  - intros V n g i q E Eq M. destruct (Hp n g E) as [[-> _]|[E0|(g0 & i0 & q0 & E0 & Eq0 & _ & _ & _ & M1 & _)]]; [discriminate|exact (Ht _ (b_checked s I V n g i q E0 (Hr _ _ _ _ E0 Eq) M))|].
    rewrite (Hq _ _ _ Eq0) in Eq. injection Eq as <- <-. destruct (M1 V M) as [M0|M0]; [exact (Ht _ (b_checked s I V n g0 i0 q0 E0 Eq0 M0))|exact M0].
  - intros V x H. exact (Ht x (b_tested s I V x H)).
  - intros n g E M. destruct (Hp n g E) as [[-> _]|[E0|(g0 & i0 & q0 & E0 & Eq0 & _ & _ & _ & _ & M1 & _)]]; [discriminate|exact (b_checking s I n g E0 M)|auto].
  - intros n i q E Eq. destruct (Hp n SBad E) as [[D _]|[E0|(g0 & i0 & q0 & E0 & Eq0 & _ & _ & _ & _ & _ & M1)]]; [discriminate| |].
    + rewrite Eh. apply happened_app. right. exact (b_bad s I n i q E0 (Hr _ _ _ _ E0 Eq)).
    + rewrite (Hq _ _ _ Eq0) in Eq. injection Eq as <- <-. auto.
Qed.

Lemma invB_step s s' : InvA s -> InvB s -> step s s' -> InvB s'.
Proof.
  intros IA I St.
  assert (NoEx : forall x t f, ~ In (t, Removed x f true) (@nil (Z * event))) by (intros x t f []).
  destruct St.
  - apply (invB_frame s _ []); cbn; auto.
  - apply (invB_frame s _ []); cbn; auto.
  - apply (invB_frame s _ [(now s, Started (List.length (runs s)))]); cbn; auto. intros x t f [E|[]]. discriminate.
  - apply (invB_frame s _ [(now s, Finished i)]); cbn; auto. intros x t f [E|[]]. discriminate.
  - apply (invB_frame s _ [(now s, Asked (List.length (reqs s)) i q)]); cbn; auto.
    + intros n i0 q0 E. apply nth_snoc. auto.
    + intros x t f [E|[]]. discriminate.
  - (* take *) apply (invB_frame s _ []); cbn; auto. intros n0 g E. injection E as <- <-. auto.
  - (* look *) apply (invB_frame s _ []); cbn; auto. intros n0 g E. injection E as <- <-. right. right. exists SLook, i, q.
    split; [exact H|]. split; [exact H0|]. destruct (images s (r_image q)) eqn:Ei; cbn; repeat match goal with |- _ /\ _ => split end; try discriminate; auto;
    intros; right; congruence.
  - (* touch *)
    pose proof (b_present s I n _ i q H H0 eq_refl) as Hpr.
    constructor; cbn.
    + intros n0 g i0 q0 E. injection E as <- <-. discriminate.
    + intros n0 g i0 q0 E Eq _. injection E as <- <-. rewrite H0 in Eq. injection Eq as <- <-. rewrite upd_same. discriminate.
    + intros n0 g i0 q0 E. injection E as <- <-. discriminate.
    + intros x Hx. destruct (string_dec x (r_image q)) as [->|N]; [exact (b_obtained s I _ Hpr)|rewrite upd_other in Hx by exact N; exact (b_obtained s I x Hx)].
    + intros V n0 g i0 q0 E. injection E as <- <-. discriminate.
    + intros V x Hx. destruct (string_dec x (r_image q)) as [->|N]; [exact (b_tested s I V _ Hpr)|rewrite upd_other in Hx by exact N; exact (b_tested s I V x Hx)].
    + intros n0 g E. injection E as <- <-. discriminate.
    + intros n0 i0 q0 E. discriminate.
  - apply (invB_frame s _ []); cbn; auto. intros n0 g E. injection E as <- <-. right. right.
    destruct (a_pull s IA n _ H) as (i & q & u & E1 & _). exists SList, i, q. split; [exact H|]. split; [exact E1|].
    cbn. repeat match goal with |- _ /\ _ => split end; try discriminate; auto.
  - destruct (daemon s (r_image q)).
    + apply (invB_frame s _ [(now s, Found (r_image q))]); cbn; auto; [intros x t f [E|[]]; discriminate|].
      intros n0 g E. injection E as <- <-. right. right. exists SList, i, q. split; [exact H|]. split; [exact H0|].
      destruct verify eqn:V; cbn; repeat match goal with |- _ /\ _ => split end; try discriminate; auto;
      intros; right; apply obtained_now; auto.
    + apply (invB_frame s _ []); cbn; auto. intros n0 g E. injection E as <- <-. right. right. exists SList, i, q. split; [exact H|]. split; [exact H0|].
      cbn; repeat match goal with |- _ /\ _ => split end; try discriminate; auto.
  - apply (invB_frame s _ []); cbn; auto. intros n0 g E. injection E as <- <-. right. right. exists SPull, i, q. split; [exact H|]. split; [exact H0|].
    cbn; repeat match goal with |- _ /\ _ => split end; try discriminate; auto.
  - (* pull *)
    apply (invB_frame s _ [(now s, Pulled n us pw (r_image q) ok)]); destruct ok; cbn; auto; try (intros x t f [E|[]]; discriminate);
    intros n0 g E; injection E as <- <-; right; right; exists SPull, i, q; (split; [exact H|]); (split; [exact H0|]);
    destruct verify eqn:V; cbn; repeat match goal with |- _ /\ _ => split end; try discriminate; auto;
    intros; right; apply obtained_now; right; eauto.
  - (* test *)
    apply (invB_frame s _ [(now s, Tested (r_image q) ok)]); cbn; auto; try (intros x t f [E|[]]; discriminate).
    intros n0 g E; injection E as <- <-; right; right; exists SVerify, i, q. split; [exact H|]. split; [exact H0|].
    pose proof (b_checking s I n _ H eq_refl) as V. destruct ok; cbn; repeat match goal with |- _ /\ _ => split end; try discriminate; auto.
    + intros _ _. right. apply tested_now.
    + intros _. apply happened_cons. now left.
  - apply (invB_frame s _ [(now s, Untested)]); cbn; auto; try (intros x t f [E|[]]; discriminate).
    destruct (a_pull s IA n _ H) as (i & q & u & E1 & _).
    intros n0 g E; injection E as <- <-; right; right; exists SUntest, i, q. split; [exact H|]. split; [exact E1|].
    cbn; repeat match goal with |- _ /\ _ => split end; try discriminate; auto.
  - (* bad *)
    pose proof (b_missing s I n _ i q H H0 eq_refl) as Hmi.
    assert (Eimg : images (if ok then set_daemon (upd (daemon s) (r_image q) false) s else s) = images s) by now destruct ok.
    assert (Ehist : hist (if ok then set_daemon (upd (daemon s) (r_image q) false) s else s) = hist s) by now destruct ok.
    assert (Ereq : reqs (if ok then set_daemon (upd (daemon s) (r_image q) false) s else s) = reqs s) by now destruct ok.
    constructor; cbn; rewrite ?Eimg, ?Ehist, ?Ereq.
    + intros n0 g i0 q0 E. injection E as <- <-. discriminate.
    + intros n0 g i0 q0 E. injection E as <- <-. discriminate.
    + intros n0 g i0 q0 E. injection E as <- <-. discriminate.
    + intros x Hx. apply obtained_cons; [intros f E; congruence|exact (b_obtained s I x Hx)].
    + intros V n0 g i0 q0 E. injection E as <- <-. discriminate.
    + intros V x Hx. apply tested_cons; [intros f E; congruence|exact (b_tested s I V x Hx)].
    + intros n0 g E. injection E as <- <-. discriminate.
    + intros n0 i0 q0 E. discriminate.
  - (* store *)
    pose proof (b_got s I n _ i q H H0 eq_refl) as Hg.
    constructor; cbn.
    + intros n0 g i0 q0 E. injection E as <- <-. discriminate.
    + intros n0 g i0 q0 E Eq _. injection E as <- <-. rewrite H0 in Eq. injection Eq as <- <-. rewrite upd_same. discriminate.
    + intros n0 g i0 q0 E. injection E as <- <-. discriminate.
    + intros x Hx. destruct (string_dec x (r_image q)) as [->|N]; [exact Hg|rewrite upd_other in Hx by exact N; exact (b_obtained s I x Hx)].
    + intros V n0 g i0 q0 E. injection E as <- <-. discriminate.
    + intros V x Hx. destruct (string_dec x (r_image q)) as [->|N]; [exact (b_checked s I V n _ i q H H0 eq_refl)|rewrite upd_other in Hx by exact N; exact (b_tested s I V x Hx)].
    + intros n0 g E. injection E as <- <-. discriminate.
    + intros n0 i0 q0 E. discriminate.
  - (* reply *)
    apply (invB_frame s _ [(now s, Replied n ok)]); cbn; auto; try (intros x t f [E|[]]; discriminate). intros n0 g E. discriminate.
  - apply (invB_frame s _ [(now s, PruneStart)]); cbn; auto; try (intros x t f [E|[]]; discriminate).
  - apply (invB_frame s _ []); cbn; auto.
  - (* remove *)
    assert (Hidle : puller s = None) by (apply (prune_idle s IA); congruence).
    destruct ok.
    + constructor; cbn; try (rewrite Hidle; discriminate).
      * intros y Hy. destruct (string_dec y x) as [->|N]; [rewrite upd_same in Hy; easy|]. rewrite upd_other in Hy by exact N.
        apply obtained_cons; [congruence|exact (b_obtained s I y Hy)].
      * intros V y Hy. destruct (string_dec y x) as [->|N]; [rewrite upd_same in Hy; easy|]. rewrite upd_other in Hy by exact N.
        apply tested_cons; [congruence|exact (b_tested s I V y Hy)].
    + apply (invB_frame s _ [(now s, PruneEnd false); (now s, Removed x false false)]); cbn; auto. intros y t1 f [E|[E|[]]]; discriminate.
  - apply (invB_frame s _ [(now s, PruneEnd true)]); cbn; auto; try (intros x t f [E|[]]; discriminate).
Qed.
Lemma invB_init l : InvB (init l).
Proof. constructor; cbn; try discriminate; congruence. Qed.
Lemma invB l s : reachable l s -> InvB s.
Proof. induction 1 as [|s s' H IH St]; [apply invB_init|exact (invB_step s s' (invA _ _ H) IH St)]. Qed.

Record InvC (s : st) : Prop := {
  c_held : forall n i q u, happened (Replied n true) (hist s) -> nth_error (reqs s) n = Some (i, q) ->
    nth_error (runs s) i = Some u -> u_active u = true -> images s (r_image q) <> None;
  c_time : forall n i q t, happened (Replied n true) (hist s) -> In (t, Asked n i q) (hist s) ->
    (exists T, images s (r_image q) = Some T /\ t <= T) \/ now s - t > ttl;
  c_reply : forall n i q t, puller s = Some (n, SReply true) -> In (t, Asked n i q) (hist s) ->
    exists T, images s (r_image q) = Some T /\ t <= T;
  c_kept : forall late early t n i q, hist s = late ++ (t, Replied n true) :: early -> nth_error (reqs s) n = Some (i, q) ->
    images s (r_image q) <> None \/ removed (r_image q) late;
  c_vis : forall t0 vis, pruner s = Some (t0, vis) -> t0 <= now s /\
    forall x T, In x vis -> images s x = Some T -> t0 - T <= ttl
}.

Lemma removed_app x h1 h2 : removed x h1 -> removed x (h2 ++ h1).
Proof. intros [f H]. exists f. apply happened_app. now right. Qed.

(** no image added or removed, no reply *)
Lemma invC_frame s s' ex : InvA s -> InvC s -> images s' = images s -> hist s' = ex ++ hist s -> now s <= now s' ->
  (forall t n, ~ In (t, Replied n true) ex) ->
  (forall t n i q, In (t, Asked n i q) ex -> n = List.length (reqs s)) ->
  (forall n i q, (n < List.length (reqs s))%nat -> nth_error (reqs s') n = Some (i, q) -> nth_error (reqs s) n = Some (i, q)) ->
  (forall i u, nth_error (runs s') i = Some u -> u_active u = true -> (i < List.length (runs s))%nat ->
     exists v, nth_error (runs s) i = Some v /\ u_active v = true) ->
  (forall n, puller s' = Some (n, SReply true) -> puller s = Some (n, SReply true)) ->
  (forall t0 vis, pruner s' = Some (t0, vis) -> t0 <= now s' /\ forall x T, In x vis -> images s x = Some T -> t0 - T <= ttl) ->
  InvC s'.
Proof.
  intros IA I Ei Eh En Hex Hask Hq Hu Hp Hv.
  assert (Hrep : forall n, happened (Replied n true) (hist s') -> happened (Replied n true) (hist s)).
  { intros n H. rewrite Eh in H. apply happened_app in H as [[t H]|H]; [destruct (Hex t n H)|exact H]. }
  assert (Hin : forall t n i q, (n < List.length (reqs s))%nat -> In (t, Asked n i q) (hist s') -> In (t, Asked n i q) (hist s)).
  { intros t n i q L H. rewrite Eh in H. apply in_app_or in H as [H|H]; [apply Hask in H; lia|exact H]. }
  constructor; rewrite ?Ei.
  - intros n i q u H E Eu Ea. apply Hrep in H. destruct (a_replied s IA n true H) as [L _]. apply (Hq n i q L) in E.
    destruct (a_owner s IA n i q E) as [w Ew]. destruct (Hu i u Eu Ea (nth_len _ _ _ Ew)) as (v & Ev & Av). exact (c_held s I n i q v H E Ev Av).
  - intros n i q t H Hi. apply Hrep in H. destruct (a_replied s IA n true H) as [L _]. apply (Hin t n i q L) in Hi.
    destruct (c_time s I n i q t H Hi) as [X|X]; [now left|right; lia].
  - intros n i q t E Hi. apply Hp in E. destruct (a_pull s IA n _ E) as (i0 & q0 & u & E0 & _). apply nth_len in E0.
    exact (c_reply s I n i q t E (Hin t n i q E0 Hi)).
  - intros late early t n i q E Eq. rewrite Eh in E.
    assert (Hs : exists late', late = ex ++ late' /\ hist s = late' ++ (t, Replied n true) :: early).
    { clear -Hex E. revert late E. induction ex as [|e ex IH]; intros late E; [exists late; auto|].
      destruct late as [|a late]; cbn in E; injection E as -> E.
      - exfalso. apply (Hex t n). now left.
      - destruct (IH (fun t n H => Hex t n (or_intror H)) late E) as (late' & -> & E'). exists late'. auto. }
    destruct Hs as (late' & -> & E').
    assert (Hr : happened (Replied n true) (hist s)) by (rewrite E'; apply happened_app; right; apply happened_cons; now left).
    destruct (a_replied s IA n true Hr) as [L _]. destruct (c_kept s I late' early t n i q E' (Hq n i q L Eq)) as [X|X]; [now left|].
    right. now apply removed_app.
  - exact Hv.
Qed.

(** an entry gets the present time *)
Lemma invC_note s n i q g : InvA s -> InvC s -> puller s = Some (n, g) -> nth_error (reqs s) n = Some (i, q) -> pruner s = None ->
  InvC (set_puller (Some (n, SReply true)) (set_images (upd (images s) (r_image q) (Some (now s))) s)).
Proof.
  intros IA I E Eq Hpr.
  constructor; cbn.
  - intros m k p u H Em Eu Ea. destruct (string_dec (r_image p) (r_image q)) as [->|N]; [rewrite upd_same; discriminate|].
    rewrite upd_other by exact N. exact (c_held s I m k p u H Em Eu Ea).
  - intros m k p t H Hi. destruct (string_dec (r_image p) (r_image q)) as [->|N].
    + left. rewrite upd_same. exists (now s). split; [reflexivity|exact (a_now s IA _ _ Hi)].
    + rewrite upd_other by exact N. exact (c_time s I m k p t H Hi).
  - intros m k p t Em Hi. injection Em as <-.
    assert (Ep : nth_error (reqs s) n = Some (k, p)) by (apply (a_asked s IA); eexists; exact Hi).
    rewrite Eq in Ep. injection Ep as <- <-. rewrite upd_same. exists (now s). split; [reflexivity|exact (a_now s IA _ _ Hi)].
  - intros late early t m k p Eh Em. destruct (string_dec (r_image p) (r_image q)) as [->|N]; [left; rewrite upd_same; discriminate|].
    rewrite upd_other by exact N. exact (c_kept s I late early t m k p Eh Em).
  - rewrite Hpr. discriminate.
Qed.

Lemma invC_step s s' : InvA s -> InvB s -> InvC s -> step s s' -> InvC s'.
Proof.
  intros IA IB I St.
  assert (NoR : forall t n, ~ In (t, Replied n true) (@nil (Z * event))) by (intros t n []).
  assert (NoA : forall t n i q, In (t, Asked n i q) (@nil (Z * event)) -> n = List.length (reqs s)) by (intros t n i q []).
  assert (Same : forall i u, nth_error (runs s) i = Some u -> u_active u = true -> (i < List.length (runs s))%nat ->
     exists v, nth_error (runs s) i = Some v /\ u_active v = true) by eauto.
  assert (Vis : forall t0 vis, pruner s = Some (t0, vis) -> t0 <= now s /\ forall x T, In x vis -> images s x = Some T -> t0 - T <= ttl)
    by apply (c_vis s I).
  destruct St.
  - apply (invC_frame s _ []); cbn; auto; try lia. intros t0 vis E. destruct (Vis t0 vis E) as [L V]. split; [lia|exact V].
  - apply (invC_frame s _ []); cbn; auto; try lia.
  - apply (invC_frame s _ [(now s, Started (List.length (runs s)))]); cbn; auto; try lia; try (intros ? ? [E|[]]; discriminate); try (intros ? ? ? ? [E|[]]; discriminate).
    intros i u E Ea L. apply nth_snoc in E as [E|[-> ->]]; [eauto|lia].
  - apply (invC_frame s _ [(now s, Finished i)]); cbn; auto; try lia; try (intros ? ? [E|[]]; discriminate); try (intros ? ? ? ? [E|[]]; discriminate).
    intros k v E Ea L. apply (nth_set_cases _ _ _ u) in E as [[-> ->]|[Nk E]]; [discriminate|eauto|exact H0].
  - apply (invC_frame s _ [(now s, Asked (List.length (reqs s)) i q)]); cbn; auto; try lia; try (intros ? ? [E|[]]; discriminate).
    + intros t n i0 q0 [E|[]]. now injection E.
    + intros n i0 q0 L E. apply nth_snoc in E as [E|[-> _]]; [exact E|lia].
    + intros k v E Ea L. apply (nth_set_cases _ _ _ u) in E as [[-> ->]|[Nk E]]; [eauto|eauto|exact H].
  - apply (invC_frame s _ []); cbn; auto; try lia. intros n0 E. discriminate.
  - apply (invC_frame s _ []); cbn; auto; try lia. intros n0 E. destruct (images s (r_image q)); discriminate.
  - exact (invC_note s n i q _ IA I H H0 H1).
  - apply (invC_frame s _ []); cbn; auto; try lia. intros n0 E. discriminate.
  - destruct (daemon s (r_image q)).
    + apply (invC_frame s _ [(now s, Found (r_image q))]); cbn; auto; try lia; try (intros ? ? [E|[]]; discriminate); try (intros ? ? ? ? [E|[]]; discriminate).
      intros n0 E. destruct verify; discriminate.
    + apply (invC_frame s _ []); cbn; auto; try lia. intros n0 E. discriminate.
  - apply (invC_frame s _ []); cbn; auto; try lia. intros n0 E. discriminate.
  - apply (invC_frame s _ [(now s, Pulled n us pw (r_image q) ok)]); destruct ok; cbn; auto; try lia; try (intros ? ? [E|[]]; discriminate); try (intros ? ? ? ? [E|[]]; discriminate);
    intros n0 E; destruct verify; discriminate.
  - apply (invC_frame s _ [(now s, Tested (r_image q) ok)]); cbn; auto; try lia; try (intros ? ? [E|[]]; discriminate); try (intros ? ? ? ? [E|[]]; discriminate).
    intros n0 E; destruct ok; discriminate.
  - apply (invC_frame s _ [(now s, Untested)]); cbn; auto; try lia; try (intros ? ? [E|[]]; discriminate); try (intros ? ? ? ? [E|[]]; discriminate).
    intros n0 E; discriminate.
  - apply (invC_frame s _ [(now s, Removed (r_image q) true ok)]); destruct ok; cbn; auto; try lia; try (intros ? ? [E|[]]; discriminate); try (intros ? ? ? ? [E|[]]; discriminate);
    intros n0 E; discriminate.
  - exact (invC_note s n i q _ IA I H H0 H1).
  - (* reply *)
    assert (Hact : forall k v, nth_error (set_nth (runs s) i (URun (u_active u) None (negb ok))) k = Some v -> u_active v = true ->
              exists w, nth_error (runs s) k = Some w /\ u_active w = true).
    { intros k v E Ea. apply (nth_set_cases _ _ _ u) in E as [[-> ->]|[Nk E]]; [exists u; auto|eauto|exact H1]. }
    constructor; cbn.
    + intros m k p v Hr Em Ev Ea. apply happened_cons in Hr as [E|Hr].
      * injection E as -> <-. rewrite H0 in Em. injection Em as <- <-. exact (b_present s IB n _ i q H H0 eq_refl).
      * destruct (Hact k v Ev Ea) as (w & Ew & Aw). exact (c_held s I m k p w Hr Em Ew Aw).
    + intros m k p t Hr [E|Hi]; [discriminate|]. apply happened_cons in Hr as [E|Hr].
      * injection E as -> <-. left. exact (c_reply s I n k p t H Hi).
      * exact (c_time s I m k p t Hr Hi).
    + discriminate.
    + intros late early t m k p E Em. destruct late as [|a late]; cbn in E; [injection E as _ -> -> _|injection E as _ E].
      * rewrite H0 in Em. injection Em as <- <-. left. exact (b_present s IB _ _ i q H H0 eq_refl).
      * destruct (c_kept s I late early t m k p E Em) as [X|X]; [now left|]. right. exact (removed_app _ _ [a] X).
    + exact Vis.
  - apply (invC_frame s _ [(now s, PruneStart)]); cbn; auto; try lia; try (intros ? ? [E|[]]; discriminate); try (intros ? ? ? ? [E|[]]; discriminate).
    intros t0 vis E. injection E as <- <-. split; [lia|intros x T []].
  - apply (invC_frame s _ []); cbn; auto; try lia. intros t1 vis1 E. injection E as <- <-. destruct (Vis t0 vis H) as [L V]. split; [exact L|].
    intros y T [->|Hy] Ey; [|exact (V y T Hy Ey)]. rewrite H0 in Ey. injection Ey as <-. lia.
  - (* remove *)
    assert (Hidle : puller s = None) by (apply (prune_idle s IA); congruence).
    assert (Hb : busy s = false) by (apply (a_prune s IA); congruence).
    destruct ok.
    + constructor; cbn.
      * intros n i q u _ _ Eu Ea. rewrite (busy_spec s Hb i u Eu) in Ea. discriminate.
      * intros n i q t1 Hr [E|Hi]; [discriminate|]. apply happened_cons in Hr as [E|Hr]; [discriminate|].
        destruct (string_dec (r_image q) x) as [Ex|N].
        -- right. destruct (c_time s I n i q t1 Hr Hi) as [(T & ET & L)|X]; [|exact X].
           rewrite Ex, H0 in ET. injection ET as <-. lia.
        -- rewrite upd_other by exact N. exact (c_time s I n i q t1 Hr Hi).
      * intros n i q t1 E. rewrite Hidle in E. discriminate.
      * intros late early t1 n i q E Eq. destruct late as [|a late]; cbn in E; [discriminate|]. injection E as <- E.
        destruct (string_dec (r_image q) x) as [->|N]; [right; exists false; exists (now s); now left|].
        rewrite upd_other by exact N. destruct (c_kept s I late early t1 n i q E Eq) as [X|X]; [now left|]. right. exact (removed_app _ _ [_] X).
      * intros t1 vis1 E. injection E as <- <-. destruct (Vis t0 vis H) as [L V]. split; [exact L|].
        intros y T Hy Ey. destruct (string_dec y x) as [->|N]; [rewrite upd_same in Ey; discriminate|].
        rewrite upd_other in Ey by exact N. exact (V y T Hy Ey).
    + apply (invC_frame s _ [(now s, PruneEnd false); (now s, Removed x false false)]); cbn; auto; try lia; try discriminate.
      * intros ? ? [E|[E|[]]]; discriminate.
      * intros ? ? ? ? [E|[E|[]]]; discriminate.
  - apply (invC_frame s _ [(now s, PruneEnd true)]); cbn; auto; try lia; try discriminate; try (intros ? ? [E|[]]; discriminate); try (intros ? ? ? ? [E|[]]; discriminate).
Qed.
Lemma invC_init l : InvC (init l).
Proof.
  assert (X : forall e, ~ happened e []) by (intros e [t []]).
  constructor; cbn; try discriminate.
  - intros n i q u H. destruct (X _ H).
  - intros n i q t H. destruct (X _ H).
  - intros late early t n i q E. destruct late; discriminate.
Qed.
Lemma invC l s : reachable l s -> InvC s.
Proof. induction 1 as [|s s' H IH St]; [apply invC_init|exact (invC_step s s' (invA _ _ H) (invB _ _ H) IH St)]. Qed.

(* ------------------------------------------------------------------ *)
(** what holds of each event, given what happened before *)
Definition okev (t : Z) (e : event) (early : list (Z * event)) : Prop :=
  match e with
  | Removed x force ok =>
      (forall n i q, happened (Asked n i q) early -> happened (Replied n true) early -> r_image q = x -> happened (Finished i) early) /\
      (force = false -> (forall i, ~ running i early) /\
         forall t' n i q, In (t', Asked n i q) early -> happened (Replied n true) early -> r_image q = x -> t - t' > ttl) /\
      (force = true -> verify = true /\ happened (Tested x false) early)
  | Pulled n us pw x ok =>
      (exists i q, happened (Asked n i q) early /\ r_image q = x /\ auth q = Some (us, pw)) /\
      (forall late' early' t' n' i' q', early = late' ++ (t', Replied n' true) :: early' -> happened (Asked n' i' q') early ->
         r_image q' = x -> removed x late')
  | Replied n true => exists i q, happened (Asked n i q) early /\ obtained (r_image q) early /\ (verify = true -> tested (r_image q) early)
  | Tested x _ => verify = true
  | _ => True
  end.
Fixpoint all_ok (h : list (Z * event)) : Prop :=
  match h with [] => True | (t, e) :: h => okev t e h /\ all_ok h end.

Lemma not_running s i : InvA s -> busy s = false -> ~ running i (hist s).
Proof.
  intros I B [Hs Hf]. apply (a_started s I) in Hs as [u Eu]. apply Hf, (a_finished s I). exists u. split; [exact Eu|exact (busy_spec s B i u Eu)].
Qed.
(** an image that is held is in the map: a name that is not in the map is not held *)
Lemma not_held s x : InvA s -> InvC s -> images s x = None ->
  forall n i q, happened (Asked n i q) (hist s) -> happened (Replied n true) (hist s) -> r_image q = x -> happened (Finished i) (hist s).
Proof.
  intros IA I Hx n i q Ha Hr E. apply (a_asked s IA) in Ha. destruct (a_owner s IA n i q Ha) as [u Eu].
  apply (a_finished s IA). exists u. split; [exact Eu|]. destruct (u_active u) eqn:A; [|reflexivity].
  exfalso. apply (c_held s I n i q u Hr Ha Eu A). congruence.
Qed.

Lemma all_ok_step s s' : InvA s -> InvB s -> InvC s -> all_ok (hist s) -> step s s' -> all_ok (hist s').
Proof.
  intros IA IB I H0 St. destruct St; cbn; auto.
  - (* list *) destruct (daemon s (r_image q)); cbn; auto.
  - (* pull *)
    assert (E : hist (if ok then set_daemon (upd (daemon s) (r_image q) true) s else s) = hist s) by now destruct ok. rewrite E.
    split; [|exact H0]. split.
    + exists i, q. split; [now apply (a_asked s IA)|auto].
    + intros late' early' t' n' i' q' Eh Ha Ex. apply (a_asked s IA) in Ha.
      destruct (c_kept s I late' early' t' n' i' q' Eh Ha) as [X|X]; [|now rewrite <- Ex].
      exfalso. apply X. rewrite Ex. exact (b_missing s IB n _ i q H H1 eq_refl).
  - split; [|exact H0]. exact (b_checking s IB n _ H eq_refl).
  - (* bad *)
    assert (E : hist (if ok then set_daemon (upd (daemon s) (r_image q) false) s else s) = hist s) by now destruct ok. rewrite E.
    split; [|exact H0]. split; [exact (not_held s _ IA I (b_missing s IB n _ i q H H1 eq_refl))|]. split; [discriminate|]. intros _.
    split; [exact (b_checking s IB n _ H eq_refl)|exact (b_bad s IB n i q H H1)].
  - (* reply *)
    split; [|exact H0]. destruct ok; [|exact Logic.I]. exists i, q. split; [now apply (a_asked s IA)|].
    pose proof (b_present s IB n _ i q H H1 eq_refl) as Hp. split; [exact (b_obtained s IB _ Hp)|intros V; exact (b_tested s IB V _ Hp)].
  - (* remove *)
    assert (Hb : busy s = false) by (apply (a_prune s IA); congruence).
    assert (Hok : okev (now s) (Removed x false ok) (hist s)).
    { split; [|split; [|discriminate]].
      - intros n i q Ha Hr Ex. destruct (a_asked s IA n i q) as [A _]. apply A in Ha. destruct (a_owner s IA n i q Ha) as [u Eu].
        apply (a_finished s IA). exists u. split; [exact Eu|exact (busy_spec s Hb i u Eu)].
      - intros _. split; [intros i; now apply not_running|].
        intros t' n i q Ha Hr Ex. destruct (c_time s I n i q t' Hr Ha) as [(T & ET & L)|X]; [|exact X].
        rewrite Ex, H1 in ET. injection ET as <-. lia. }
    destruct ok; cbn; auto.
Qed.

Lemma all_ok_reach l s : reachable l s -> all_ok (hist s).
Proof.
  induction 1 as [|s s' H IH St]; [exact Logic.I|exact (all_ok_step s s' (invA _ _ H) (invB _ _ H) (invC _ _ H) IH St)].
Qed.
Lemma all_ok_split h late t e early : all_ok h -> h = late ++ (t, e) :: early -> okev t e early.
Proof.
  revert h. induction late as [|[t0 e0] late IH]; intros h H E; subst h; cbn in H; [apply H|]. exact (IH _ (proj2 H) eq_refl).
Qed.

(** an executable version of the steps, for the examples *)
Inductive label := LTick (d : Z) | LStart | LFinish (i : nat) | LAsk (i : nat) (q : req) | LTake (n : nat) | LLook | LTouch | LList
| LPull (ok : bool) | LTest (ok : bool) | LUntest | LBad (ok : bool) | LStore | LReply | LPrune | LKeep (x : string) | LRemove (x : string) (ok : bool) | LGone (x : string).
Definition pruning (s : st) : bool := match pruner s with None => false | _ => true end.
Definition exec (a : label) (s : st) : option st :=
  match a with
  | LTick d => if 0 <=? d then Some (set_now (now s + d) s) else None
  | LGone x => Some (set_daemon (upd (daemon s) x false) s)
  | LStart => if pruning s then None else Some (log (Started (List.length (runs s))) (set_runs (runs s ++ [URun true None false]) s))
  | LFinish i => match pruner s, nth_error (runs s) i with
                 | None, Some (URun true None f) => Some (log (Finished i) (set_runs (set_nth (runs s) i (URun false None f)) s))
                 | _, _ => None end
  | LAsk i q => match nth_error (runs s) i with
                | Some (URun true None false) => Some (log (Asked (List.length (reqs s)) i q)
             (set_runs (set_nth (runs s) i (URun true (Some (List.length (reqs s))) false)) (set_reqs (reqs s ++ [(i, q)]) s)))
                | _ => None end
  | LTake n => match puller s, nth_error (reqs s) n with
               | None, Some (i, _) => match nth_error (runs s) i with
                                      | Some (URun _ (Some m) _) => if Nat.eqb m n then Some (set_puller (Some (n, SLook)) s) else None
                                      | _ => None end
               | _, _ => None end
  | LPrune => if (pruning s || busy s)%bool then None else Some (log PruneStart (set_pruner (Some (now s, [])) s))
  | LKeep x => match pruner s, images s x with
               | Some (t0, vis), Some t => if (existsb (String.eqb x) vis || negb (now s - t <=? ttl))%bool then None
                                           else Some (set_pruner (Some (t0, x :: vis)) s)
               | _, _ => None end
  | LRemove x ok => match pruner s, images s x with
               | Some (t0, vis), Some t => if (existsb (String.eqb x) vis || (now s - t <=? ttl) || (ok && negb (daemon s x)))%bool then None
                     else Some (if ok
            then log (Removed x false true) (set_pruner (Some (t0, vis)) (set_images (upd (images s) x None)
                   (set_daemon (upd (daemon s) x false) s)))
            else log (PruneEnd false) (log (Removed x false false) (set_pruner None s)))
               | _, _ => None end
  | _ => match puller s with
         | None => None
         | Some (n, g) =>
           match nth_error (reqs s) n with
           | None => None
           | Some (i, q) =>
             match a, g with
             | LLook, SLook => if pruning s then None else
                 Some (set_puller (Some (n, match images s (r_image q) with Some _ => STouch | None => SList end)) s)
             | LTouch, STouch | LStore, SStore => if pruning s then None else
                 Some (set_puller (Some (n, SReply true)) (set_images (upd (images s) (r_image q) (Some (now s))) s))
             | LList, SList => Some (if daemon s (r_image q)
                then log (Found (r_image q)) (set_puller (Some (n, if verify then SVerify else SStore)) s)
                else set_puller (Some (n, SPull)) s)
             | LPull ok, SPull => match auth q with None => None | Some (us, pw) =>
                 Some (log (Pulled n us pw (r_image q) ok)
                        (set_puller (Some (n, if ok then (if verify then SVerify else SStore) else SReply false))
                          (if ok then set_daemon (upd (daemon s) (r_image q) true) s else s))) end
             | LTest ok, SVerify => Some (log (Tested (r_image q) ok) (set_puller (Some (n, if ok then SUntest else SBad)) s))
             | LUntest, SUntest => Some (log Untested (set_puller (Some (n, SStore)) s))
             | LBad ok, SBad => if (ok && negb (daemon s (r_image q)))%bool then None else
                 Some (log (Removed (r_image q) true ok) (set_puller (Some (n, SReply false))
                        (if ok then set_daemon (upd (daemon s) (r_image q) false) s else s)))
             | LReply, SReply ok => match nth_error (runs s) i with None => None | Some u =>
                 Some (log (Replied n ok) (set_puller None (set_runs (set_nth (runs s) i (URun (u_active u) None (negb ok))) s))) end
             | _, _ => None
             end
           end
         end
  end.
Fixpoint execs (l : list label) (s : st) : option st :=
  match l with [] => Some s | a :: l => match exec a s with Some s' => execs l s' | None => None end end.

Lemma pruning_false s : pruning s = false -> pruner s = None.
Proof. unfold pruning. destruct (pruner s); [discriminate|reflexivity]. Qed.
Lemma not_in_vis x vis : existsb (String.eqb x) vis = false -> ~ In x vis.
Proof. intros E H. assert (X : existsb (String.eqb x) vis = true) by (apply existsb_exists; exists x; split; [exact H|apply String.eqb_refl]). congruence. Qed.
Lemma exec_sound a s s' : exec a s = Some s' -> step s s'.
Proof.
  destruct a; cbn.
  all: try (destruct (puller s) as [[n0 g]|] eqn:Ep; [|discriminate]; destruct (nth_error (reqs s) n0) as [[i0 q0]|] eqn:En; [|discriminate];
            destruct g; try discriminate).
  - destruct (0 <=? d) eqn:E; [|discriminate]. intros H. injection H as <-. apply st_tick. lia.
  - destruct (pruning s) eqn:E; [discriminate|]. intros H. injection H as <-. apply st_start. now apply pruning_false.
  - destruct (pruner s) eqn:E; [discriminate|]. destruct (nth_error (runs s) i) as [[[] [] f]|] eqn:En; try discriminate.
    intros H. injection H as <-. exact (st_finish s i (URun true None f) E En eq_refl eq_refl).
  - destruct (nth_error (runs s) i) as [[[] [] []]|] eqn:En; try discriminate. intros H. injection H as <-.
    exact (st_ask s i (URun true None false) q En eq_refl eq_refl eq_refl).
  - destruct (puller s) eqn:Ep; [discriminate|]. destruct (nth_error (reqs s) n) as [[i q]|] eqn:En; [|discriminate].
    destruct (nth_error (runs s) i) as [[b [m|] f]|] eqn:Er; try discriminate. destruct (Nat.eqb m n) eqn:Em; [|discriminate].
    apply Nat.eqb_eq in Em. subst m. intros H. injection H as <-. exact (st_take s n i q _ Ep En Er eq_refl).
  - destruct (pruning s) eqn:E; [discriminate|]. intros H. injection H as <-. exact (st_look s n0 i0 q0 Ep En (pruning_false s E)).
  - destruct (pruning s) eqn:E; [discriminate|]. intros H. injection H as <-. exact (st_touch s n0 i0 q0 Ep En (pruning_false s E)).
  - intros H. injection H as <-. exact (st_list s n0 i0 q0 Ep En).
  - destruct (auth q0) as [[us pw]|] eqn:Ea; [|discriminate]. intros H. injection H as <-. exact (st_pull s n0 i0 q0 us pw ok Ep En Ea).
  - intros H. injection H as <-. exact (st_test s n0 i0 q0 ok Ep En).
  - intros H. injection H as <-. exact (st_untest s n0 Ep).
  - destruct (ok && negb (daemon s (r_image q0)))%bool eqn:E; [discriminate|]. intros H. injection H as <-. apply (st_bad s n0 i0 q0 ok Ep En).
    intros ->. cbn in E. now destruct (daemon s (r_image q0)).
  - destruct (pruning s) eqn:E; [discriminate|]. intros H. injection H as <-. exact (st_store s n0 i0 q0 Ep En (pruning_false s E)).
  - destruct (nth_error (runs s) i0) as [u|] eqn:Er; [|discriminate]. intros H. injection H as <-. exact (st_reply s n0 i0 q0 u ok Ep En Er).
  - destruct (pruning s || busy s)%bool eqn:E; [discriminate|]. apply orb_false_iff in E as [E1 E2]. intros H. injection H as <-.
    exact (st_prune s (pruning_false s E1) E2).
  - destruct (pruner s) as [[t0 vis]|] eqn:Ep; [|discriminate]. destruct (images s x) as [t|] eqn:Ei; [|discriminate].
    destruct (_ || _)%bool eqn:E; [discriminate|]. apply orb_false_iff in E as [E1 E2]. intros H. injection H as <-.
    apply (st_keep s t0 vis x t Ep Ei (not_in_vis _ _ E1)). destruct (now s - t <=? ttl) eqn:El; [lia|discriminate].
  - destruct (pruner s) as [[t0 vis]|] eqn:Ep; [|discriminate]. destruct (images s x) as [t|] eqn:Ei; [|discriminate].
    destruct (_ || _)%bool eqn:E; [discriminate|]. apply orb_false_iff in E as [E E3]. apply orb_false_iff in E as [E1 E2]. intros H. injection H as <-.
    apply (st_remove s t0 vis x t ok Ep Ei (not_in_vis _ _ E1)); [lia|]. intros ->. cbn in E3. now destruct (daemon s x).
  - intros H. injection H as <-. apply st_other.
Qed.
Lemma execs_sound local l : forall s s', reachable local s -> execs l s = Some s' -> reachable local s'.
Proof.
  induction l as [|a l IH]; intros s s' R E; [now injection E as <-|]. cbn in E. destruct (exec a s) as [s1|] eqn:Ea; [|discriminate].
  exact (IH s1 s' (r_step local s s1 R (exec_sound a s s1 Ea)) E).
Qed.
End Machine.

(* ------------------------------------------------------------------ *)
(** * Theorems
    [reachable ttl verify dom cred local s]: a reachable state of the runtime, whatever the time to live, the verification
    flag, the reference parser, the configured credentials and the images the host had at the start. *)

(** C71 (in use). An image that was handed to a task is not removed by the runtime, neither by pruning nor after a failed
    verification, before that task's Run returned. *)
Theorem C71_in_use : forall ttl verify dom cred local s late t x force ok early n i q,
  reachable ttl verify dom cred local s -> hist s = late ++ (t, Removed x force ok) :: early ->
  happened (Asked n i q) early -> happened (Replied n true) early -> r_image q = x -> happened (Finished i) early.
Proof.
  intros ttl verify dom cred local s late t x force ok early n i q R E.
  pose proof (all_ok_split _ _ _ _ _ _ _ _ _ (all_ok_reach _ _ _ _ _ _ R) E) as [H _]. exact (H n i q).
Qed.
Print Assumptions C71_in_use.

(** C71 (pruning). The pruner removes an image only when no task is running at all and every request for it that was served is older
    than the time to live. *)
Theorem C71_prune : forall ttl verify dom cred local s late t x ok early,
  reachable ttl verify dom cred local s -> hist s = late ++ (t, Removed x false ok) :: early ->
  (forall i, ~ running i early) /\
  (forall t' n i q, In (t', Asked n i q) early -> happened (Replied n true) early -> r_image q = x -> t - t' > ttl).
Proof.
  intros ttl verify dom cred local s late t x ok early R E.
  pose proof (all_ok_split _ _ _ _ _ _ _ _ _ (all_ok_reach _ _ _ _ _ _ R) E) as [_ [H _]]. exact (H eq_refl).
Qed.
Print Assumptions C71_prune.

(** C71 (a complete round). When a round of the pruner that began at t0 ends without an error, no remembered image was unrequested for
    longer than the time to live at t0. *)
Theorem C71_prune_complete : forall ttl verify dom cred local s s' t0 vis,
  reachable ttl verify dom cred local s -> pruner s = Some (t0, vis) -> step ttl verify dom cred s s' ->
  hist s' = (now s, PruneEnd true) :: hist s -> forall x T, images s' x = Some T -> t0 - T <= ttl.
Proof.
  intros ttl verify dom cred local s s' t0 vis R Ep St Eh x T Ex.
  pose proof (invC _ _ _ _ _ _ R) as IC. pose proof (prune_idle s (invA _ _ _ _ _ _ R)) as Hi.
  destruct (c_vis _ _ IC t0 vis Ep) as [_ V].
  assert (Hl : forall {A} (a : A) l, l <> a :: l) by (intros A a l; induction l; congruence).
  inversion St; subst; cbn in Eh, Ex; try congruence; try (exfalso; exact (Hl _ _ _ Eh)).
  - destruct (daemon s (r_image q)); cbn in Eh; [congruence|exfalso; exact (Hl _ _ _ Eh)].
  - destruct ok; cbn in Eh; congruence.
  - assert (E : (t0, vis) = (t1, vis0)) by congruence. injection E as -> ->. exact (V x T (H0 x T Ex) Ex).
Qed.
Print Assumptions C71_prune_complete.

(** C71 (forced removal). An image is removed by force only if verification is on and creating a container from it failed. *)
Theorem C71_forced : forall ttl verify dom cred local s late t x ok early,
  reachable ttl verify dom cred local s -> hist s = late ++ (t, Removed x true ok) :: early ->
  verify = true /\ happened (Tested x false) early.
Proof.
  intros ttl verify dom cred local s late t x ok early R E.
  pose proof (all_ok_split _ _ _ _ _ _ _ _ _ (all_ok_reach _ _ _ _ _ _ R) E) as [_ [_ H]]. exact (H eq_refl).
Qed.
Print Assumptions C71_forced.

(** C71 (served). A request is answered without an error only if its image was found on the host or pulled successfully, and, when
    verification is on, a container could be created from it; in both cases the runtime has not removed it since. *)
Theorem C71_served : forall ttl verify dom cred local s late t n early,
  reachable ttl verify dom cred local s -> hist s = late ++ (t, Replied n true) :: early ->
  exists i q, happened (Asked n i q) early /\ obtained (r_image q) early /\ (verify = true -> tested (r_image q) early).
Proof.
  intros ttl verify dom cred local s late t n early R E.
  exact (all_ok_split _ _ _ _ _ _ _ _ _ (all_ok_reach _ _ _ _ _ _ R) E).
Qed.
Print Assumptions C71_served.

(** C71 (credentials). Every pull is for a request that was made and uses the credentials of that task's registry if it names a user,
    else those configured for the registry of the image, else none. *)
Theorem C71_credentials : forall ttl verify dom cred local s t n us pw x ok,
  reachable ttl verify dom cred local s -> In (t, Pulled n us pw x ok) (hist s) ->
  exists i q, happened (Asked n i q) (hist s) /\ r_image q = x /\
    ((r_user q <> "" /\ us = r_user q /\ pw = r_pass q) \/
     (r_user q = "" /\ exists d, dom x = Some d /\ ((d = "" /\ us = "" /\ pw = "") \/ (d <> "" /\ cred d = Some (us, pw))))).
Proof.
  intros ttl verify dom cred local s t n us pw x ok R Hin. apply in_split in Hin as (late & early & E).
  pose proof (all_ok_split _ _ _ _ _ _ _ _ _ (all_ok_reach _ _ _ _ _ _ R) E) as [(i & q & Ha & Ex & Eau) _].
  exists i, q. split; [rewrite E; apply happened_app; right; apply happened_cons; now right|]. split; [exact Ex|].
  unfold auth in Eau. destruct (String.eqb (r_user q) "") eqn:Eu.
  - right. apply String.eqb_eq in Eu. split; [exact Eu|]. rewrite Ex in Eau. destruct (dom x) as [d|]; [|discriminate]. exists d. split; [reflexivity|].
    destruct (String.eqb d "") eqn:Ed; [left; apply String.eqb_eq in Ed|right; apply String.eqb_neq in Ed; auto]. injection Eau as <- <-. auto.
  - left. apply String.eqb_neq in Eu. injection Eau as <- <-. auto.
Qed.
Print Assumptions C71_credentials.

(** C71 (pulled once). An image that was handed to a task is not pulled again unless the runtime removed it in between. *)
Theorem C71_pulled_once : forall ttl verify dom cred local s late t n us pw x ok mid t' n' early i' q',
  reachable ttl verify dom cred local s ->
  hist s = late ++ (t, Pulled n us pw x ok) :: mid ++ (t', Replied n' true) :: early ->
  happened (Asked n' i' q') early -> r_image q' = x -> removed x mid.
Proof.
  intros ttl verify dom cred local s late t n us pw x ok mid t' n' early i' q' R E Ha Ex.
  pose proof (all_ok_split _ _ _ _ _ _ _ _ _ (all_ok_reach _ _ _ _ _ _ R) E) as [_ H].
  apply (H mid early t' n' i' q' eq_refl); [|exact Ex]. apply happened_app. right. apply happened_cons. now right.
Qed.
Print Assumptions C71_pulled_once.

(** C71 (one at a time). Each request is answered at most once, and only while its task runs. *)
Theorem C71_one_answer : forall ttl verify dom cred local s late t n ok early,
  reachable ttl verify dom cred local s -> hist s = late ++ (t, Replied n ok) :: early ->
  forall ok', ~ happened (Replied n ok') early /\ forall i q, happened (Asked n i q) early -> running i early.
Proof.
  set (P := fun n (early : list (Z * event)) => forall ok', ~ happened (Replied n ok') early /\ forall i q, happened (Asked n i q) early -> running i early).
  intros ttl verify dom cred local s late t n ok early R. change (hist s = late ++ (t, Replied n ok) :: early -> P n early).
  revert late t n ok early. induction R as [|s s' R IH St]; [intros late t n ok early E; destruct late; discriminate|].
  assert (Old : forall ex, hist s' = ex ++ hist s -> (forall t n ok, ~ In (t, Replied n ok) ex) ->
            forall late t n ok early, hist s' = late ++ (t, Replied n ok) :: early -> P n early).
  { intros ex Eh Hex late t n ok early E. rewrite Eh in E. clear Eh. revert late E. induction ex as [|a ex IHx]; intros late E.
    - exact (IH late t n ok early E).
    - destruct late as [|b late]; injection E as -> E; [destruct (Hex t n ok); now left|].
      exact (IHx (fun t n ok H => Hex t n ok (or_intror H)) late E). }
  pose proof (invA _ _ _ _ _ _ R) as IA.
  inversion St; subst; cbn [hist log set_now set_daemon set_puller set_runs set_reqs set_images set_pruner] in *.
  all: try (apply (Old []); [reflexivity|easy]).
  all: try (eapply (Old [_]); [reflexivity|intros ? ? ? [X|[]]; discriminate X]).
  - destruct (daemon s (r_image q)); cbn in *; [eapply (Old [_]); [reflexivity|intros ? ? ? [X|[]]; discriminate X]|apply (Old []); [reflexivity|easy]].
  - destruct ok; cbn in *; (eapply (Old [_]); [reflexivity|intros ? ? ? [X|[]]; discriminate X]).
  - destruct ok; cbn in *; (eapply (Old [_]); [reflexivity|intros ? ? ? [X|[]]; discriminate X]).
  - intros late t n1 ok1 early E. destruct late as [|b late]; injection E as E1 E2; [|exact (IH late t n1 ok1 early E2)].
    subst. intros ok'. destruct (a_pull s IA _ _ H) as (i2 & q2 & u2 & A1 & A2 & A3). split.
    + intros Hr. destruct (a_replied s IA _ _ Hr) as [_ N]. exact (N i2 u2 A2 A3).
    + intros i3 q3 Ha. apply (a_asked s IA) in Ha. rewrite A1 in Ha. injection Ha as <- <-. split; [apply (a_started s IA); eauto|].
      intros Hf. apply (a_finished s IA) in Hf as (u3 & B1 & B2). rewrite A2 in B1. injection B1 as <-.
      destruct (a_req s IA _ _ _ A2 A3) as [B3 _]. congruence.
  - destruct ok; cbn in *; [eapply (Old [_]); [reflexivity|intros ? ? ? [X|[]]; discriminate X]|].
    eapply (Old [_; _]); [reflexivity|intros ? ? ? [X|[X|[]]]; discriminate X].
Qed.
Print Assumptions C71_one_answer.

(* ------------------------------------------------------------------ *)
(** * Examples and refuted variants *)
Definition no_cred : string -> option (string * string) := fun _ => None.
Definition no_dom : string -> option string := fun _ => Some "".
Definition after (verify : bool) (local : string -> bool) (l : list label) : st :=
  match execs 100 verify no_dom no_cred l (init local) with Some s => s | None => init local end.
Lemma after_reachable verify local l : reachable 100 verify no_dom no_cred local (after verify local l).
Proof.
  unfold after. destruct (execs _ _ _ _ l (init local)) as [s|] eqn:E; [|apply r_init]. exact (execs_sound _ _ _ _ local l _ s (r_init _ _ _ _ local) E).
Qed.
Definition nothing : string -> bool := fun _ => false.
Definition mine : req := Req "reg/private" "me" "secret".
Definition anon : req := Req "reg/private" "" "".

(** Two tasks, one pull with the first task's credentials, a test container, and the removal 100 hours after the second. *)
Definition story : list label :=
  [LStart; LStart; LAsk 0 mine; LTake 0; LLook; LList; LPull true; LTest true; LUntest; LStore; LReply; LTick 50;
   LAsk 1 anon; LTake 1; LLook; LTouch; LReply; LFinish 0; LFinish 1; LTick 101; LPrune; LRemove "reg/private" true].
Example C71_nonvacuous : hist (after true nothing story) =
  [(151, Removed "reg/private" false true); (151, PruneStart); (50, Finished 1); (50, Finished 0); (50, Replied 1 true); (50, Asked 1 1 anon);
   (0, Replied 0 true); (0, Untested); (0, Tested "reg/private" true); (0, Pulled 0 "me" "secret" "reg/private" true); (0, Asked 0 0 mine);
   (0, Started 1); (0, Started 0)].
Proof. reflexivity. Qed.

(** False: "an image that needs credentials is only given to tasks that have them". *)
Theorem C71_shared_credentials_refuted :
  ~ (forall ttl verify dom cred local s n i q m us pw, reachable ttl verify dom cred local s -> happened (Asked n i q) (hist s) ->
       happened (Replied n true) (hist s) -> r_user q = "" -> happened (Pulled m us pw (r_image q) true) (hist s) -> us = "").
Proof.
  intros H. pose proof (after_reachable true nothing story) as R. assert (X : "me" = ""); [|discriminate X].
  apply (H _ _ _ _ _ _ 1%nat 1%nat anon 0%nat "me" "secret" R); [exists 50|exists 50|reflexivity|exists 0]; rewrite C71_nonvacuous; cbn [In]; auto 20.
Qed.

(** False: "the runtime removes only images it pulled". An image of the host that a task used is removed like the others. *)
Definition host : string -> bool := fun x => String.eqb x "base".
Definition use_host : list label :=
  [LStart; LAsk 0 (Req "base" "" ""); LTake 0; LLook; LList; LStore; LReply; LFinish 0; LTick 101; LPrune; LRemove "base" true].
Example use_host_hist : hist (after false host use_host) =
  [(101, Removed "base" false true); (101, PruneStart); (0, Finished 0); (0, Replied 0 true); (0, Found "base"); (0, Asked 0 0 (Req "base" "" ""));
   (0, Started 0)].
Proof. vm_compute. reflexivity. Qed.
Theorem C71_foreign_image_refuted :
  ~ (forall ttl verify dom cred local s x, reachable ttl verify dom cred local s -> removed x (hist s) ->
       exists n us pw, happened (Pulled n us pw x true) (hist s)).
Proof.
  intros H. destruct (H _ _ _ _ _ _ "base" (after_reachable false host use_host)) as (n & us & pw & t & Hin).
  - exists false, 101. rewrite use_host_hist. now left.
  - rewrite use_host_hist in Hin. cbn [In] in Hin. repeat (destruct Hin as [Hin|Hin]; [discriminate Hin|]). destruct Hin.
Qed.

(** False: "an image is removed only when no task used it within the time to live": the time of the request counts, not the end of the
    task that used it. *)
Definition long_task : list label :=
  [LStart; LAsk 0 mine; LTake 0; LLook; LList; LPull true; LStore; LReply; LTick 101; LFinish 0; LPrune; LRemove "reg/private" true].
Example long_task_hist : hist (after false nothing long_task) =
  [(101, Removed "reg/private" false true); (101, PruneStart); (101, Finished 0); (0, Replied 0 true); (0, Pulled 0 "me" "secret" "reg/private" true);
   (0, Asked 0 0 mine); (0, Started 0)].
Proof. vm_compute. reflexivity. Qed.
Theorem C71_long_task_refuted :
  ~ (forall ttl verify dom cred local s late t x early n i q t', reachable ttl verify dom cred local s ->
       hist s = late ++ (t, Removed x false true) :: early -> happened (Asked n i q) early -> happened (Replied n true) early ->
       r_image q = x -> In (t', Finished i) early -> t - t' > ttl).
Proof.
  intros H.
  assert (X : 101 - 101 > 100); [|lia].
  refine (H 100 false no_dom no_cred nothing _ [] 101 "reg/private" _ 0%nat 0%nat mine 101 (after_reachable false nothing long_task) long_task_hist _ _ eq_refl _).
  - exists 0. cbn [In]. auto 20.
  - exists 0. cbn [In]. auto 20.
  - cbn [In]. auto 20.
Qed.

(** False: "an answered request means that the host has the image": an image another program removed is never pulled again, since the
    runtime remembers it. *)
Definition gone : list label :=
  [LStart; LAsk 0 mine; LTake 0; LLook; LList; LPull true; LStore; LReply; LGone "reg/private"; LAsk 0 mine; LTake 1; LLook; LTouch].
Example gone_1 : puller (after false nothing gone) = Some (1%nat, SReply true). Proof. vm_compute. reflexivity. Qed.
Example gone_2 : nth_error (reqs (after false nothing gone)) 1 = Some (0%nat, mine). Proof. vm_compute. reflexivity. Qed.
Example gone_3 : daemon (after false nothing gone) (r_image mine) = false. Proof. vm_compute. reflexivity. Qed.
Theorem C71_stale_refuted :
  ~ (forall ttl verify dom cred local s n i q, reachable ttl verify dom cred local s -> puller s = Some (n, SReply true) ->
       nth_error (reqs s) n = Some (i, q) -> daemon s (r_image q) = true).
Proof.
  intros H. pose proof (H _ _ _ _ _ _ 1%nat 0%nat mine (after_reachable false nothing gone) gone_1 gone_2) as X. rewrite gone_3 in X. discriminate X.
Qed.

(** False: "only an image that the runtime pulled is removed by force": with verification on, a failed test (also one that failed because
    the task was cancelled meanwhile) removes an image the host had before. *)
Definition cancelled : list label := [LStart; LAsk 0 (Req "base" "" ""); LTake 0; LLook; LList; LTest false; LBad true].
Example cancelled_hist : hist (after true host cancelled) =
  [(0, Removed "base" true true); (0, Tested "base" false); (0, Found "base"); (0, Asked 0 0 (Req "base" "" "")); (0, Started 0)].
Proof. vm_compute. reflexivity. Qed.
Theorem C71_forced_foreign_refuted :
  ~ (forall ttl verify dom cred local s x, reachable ttl verify dom cred local s -> happened (Removed x true true) (hist s) ->
       exists n us pw, happened (Pulled n us pw x true) (hist s)).
Proof.
  intros H. destruct (H _ _ _ _ _ _ "base" (after_reachable true host cancelled)) as (n & us & pw & t & Hin).
  - exists 0. rewrite cancelled_hist. now left.
  - rewrite cancelled_hist in Hin. cbn [In] in Hin. repeat (destruct Hin as [Hin|Hin]; [discriminate Hin|]). destruct Hin.
Qed.
