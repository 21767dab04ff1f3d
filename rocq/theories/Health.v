(** C53: GET /health.  health/health.go:25-66; the handler internal/coordinator/api/api.go (health) answers 200 iff the
    status is UP, else 503. *)
From Coq Require Import List String Bool Permutation.
Import ListNotations.
Open Scope string_scope.

(* ------------------------------------------------------------------ *)
(** * Model *)
(** An indicator either succeeds ([None]) or returns an error.  The map of indicators is iterated in an arbitrary order
    at each call: [order] is the sequence visited. *)
Definition indicator := option string.
Definition registry := list (string * indicator).
(** health.go:34-44: registering an empty or known name panics ([None]); the name is trimmed ([trim]) *)
Section Trim.
Variable trim : string -> string.
Definition with_indicator (r : registry) (name : string) (i : indicator) : option registry :=
  let name := trim name in
  if String.eqb name "" then None
  else if existsb (fun p => String.eqb (fst p) name) r then None
  else Some (r ++ [(name, i)])%list.
End Trim.
(** health.go:52-66 *)
Fixpoint do_check (order : registry) : bool (* UP *) :=
  match order with
  | [] => true
  | (_, i) :: r => match i with Some _ => false | None => do_check r end
  end.

(* ------------------------------------------------------------------ *)
(** * Proofs *)
(** UP iff every registered check succeeds, in whatever order the map is walked *)
Theorem C53_up_iff_all_succeed : forall r order, Permutation r order ->
  (do_check order = true <-> forall name i, In (name, i) r -> i = None).
Proof.
  intros r order P. transitivity (forall name i, In (name, i) order -> i = None).
  - clear. induction order as [|[n i] order IH]; cbn.
    + split; [intros _ ? ? []|reflexivity].
    + destruct i as [e|]; split.
      * discriminate.
      * intros H. specialize (H n (Some e) (or_introl eq_refl)). discriminate.
      * intros H name j [[= <- <-]|Hin]; [reflexivity|]. eapply IH; eassumption.
      * intros H. apply IH. intros name j Hin. apply (H name j). auto.
  - split; intros H name i Hin; apply (H name i); [eapply Permutation_in; eassumption|eapply Permutation_in; [symmetry|]; eassumption].
Qed.
Print Assumptions C53_up_iff_all_succeed.

(** one failing component makes it DOWN whatever the order *)
Theorem C53_one_failure_is_down : forall r order name e, Permutation r order -> In (name, Some e) r -> do_check order = false.
Proof.
  intros r order name e P Hin. destruct (do_check order) eqn:E; [|reflexivity].
  apply (C53_up_iff_all_succeed r order P) with (name := name) (i := Some e) in E; [discriminate|assumption].
Qed.
Print Assumptions C53_one_failure_is_down.

(** a registration is never lost or overwritten: it either panics or adds exactly one check *)
Theorem C53_registration : forall trim r name i r', with_indicator trim r name i = Some r' ->
  r' = (r ++ [(trim name, i)])%list /\ trim name <> "" /\ ~ In (trim name) (map fst r).
Proof.
  intros trim r name i r'. unfold with_indicator. destruct (String.eqb_spec (trim name) ""); [discriminate|].
  destruct (existsb _ r) eqn:E; [discriminate|]. intros [= <-]. split; [reflexivity|]. split; [assumption|].
  intros Hin. apply in_map_iff in Hin as ([n' j] & En & Hin). assert (existsb (fun p => String.eqb (fst p) (trim name)) r = true); [|congruence].
  apply existsb_exists. exists (n', j). split; [assumption|]. now apply String.eqb_eq.
Qed.
Print Assumptions C53_registration.

Example C53_nonvacuous : do_check [("broker", None); ("datastore", Some "down"); ("runtime", None)] = false /\ do_check [("broker", None); ("runtime", None)] = true.
Proof. split; reflexivity. Qed.
