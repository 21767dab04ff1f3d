(** C46: middleware chains.  The same [ApplyMiddleware]/[next] pair is written four times:
    middleware/job/job.go:29-41, middleware/task/task.go:34-46, middleware/log/log.go:19-31,
    middleware/node/node.go:13-25. *)
From Coq Require Import List Arith Lia.
Import ListNotations.

(* ------------------------------------------------------------------ *)
(** * Model *)
Section Apply.
Context {H : Type}.     (* the handler type *)
(** [next(ctx, index, mws, h)]; [n] bounds the recursion depth, the Go code recurses until index = len(mws) *)
Fixpoint next_ (n index : nat) (mws : list (H -> H)) (h : H) : H :=
  match n with
  | 0 => h
  | S n' => if length mws <=? index then h
            else match nth_error mws index with Some m => m (next_ n' (index + 1) mws h) | None => h end
  end.
Definition apply_middleware (h : H) (mws : list (H -> H)) : H := next_ (length mws) 0 mws h.
End Apply.

(* ------------------------------------------------------------------ *)
(** * Specification *)
(** Handlers that can be observed: on an event they produce a sequence of visible actions and a result. *)
Section Obs.
Context {E A R : Type}.
Definition handler := E -> list A * R.
(** a middleware with a before-hook and an after-hook around [next] *)
Definition around (before after : E -> list A) : handler -> handler :=
  fun next e => let (t, r) := next e in (before e ++ t ++ after e, r).
(** a middleware that answers by itself *)
Definition stops (g : handler) : handler -> handler := fun _ => g.
End Obs.

(* ------------------------------------------------------------------ *)
(** * Proofs *)
Lemma next_fold {H} (mws pre : list (H -> H)) h : next_ (length mws) (length pre) (pre ++ mws) h = fold_right (fun m k => m k) h mws.
Proof.
  revert pre. induction mws as [|m mws IH]; intros pre; [reflexivity|]. cbn [length next_].
  destruct (Nat.leb_spec (length (pre ++ m :: mws)) (length pre)); [rewrite app_length in *; cbn in *; lia|].
  rewrite nth_error_app2, Nat.sub_diag by lia. cbn [nth_error fold_right]. f_equal.
  specialize (IH (pre ++ [m])). rewrite app_length in IH. cbn in IH. rewrite <- IH. now rewrite <- app_assoc.
Qed.
Lemma apply_fold {H} (mws : list (H -> H)) h : apply_middleware h mws = fold_right (fun m k => m k) h mws.
Proof. apply (next_fold mws [] h). Qed.

(** with no middleware the handler runs alone *)
Theorem C46_no_middleware : forall H (h : H), apply_middleware h [] = h.
Proof. reflexivity. Qed.
Print Assumptions C46_no_middleware.

(** the first registered is the outermost, whatever the middlewares do *)
Theorem C46_first_is_outermost : forall H (h : H) m mws, apply_middleware h (m :: mws) = m (apply_middleware h mws).
Proof. intros. now rewrite !apply_fold. Qed.
Print Assumptions C46_first_is_outermost.

(** before-hooks in registration order, then the handler, then after-hooks in reverse *)
Theorem C46_hooks_order : forall E A R (h : @handler E A R) hooks e,
  apply_middleware h (map (fun p => around (fst p) (snd p)) hooks) e =
    (flat_map (fun p => fst p e) hooks ++ fst (h e) ++ flat_map (fun p => snd p e) (rev hooks), snd (h e)).
Proof.
  intros E A R h hooks e. rewrite apply_fold. induction hooks as [|[b a] hooks IH]; cbn.
  - rewrite app_nil_r. now destruct (h e).
  - unfold around at 1. rewrite IH. cbn. f_equal. rewrite <- !app_assoc. do 3 f_equal. rewrite flat_map_app. cbn. now rewrite app_nil_r.
Qed.
Print Assumptions C46_hooks_order.

(** a middleware that does not call next prevents everything after it, and only that *)
Theorem C46_stop : forall E A R (h h' : @handler E A R) g pre post post',
  apply_middleware h (pre ++ stops g :: post) = apply_middleware h' (pre ++ stops g :: post') /\
  apply_middleware h (pre ++ stops g :: post) = apply_middleware g pre.
Proof.
  intros. rewrite !apply_fold, !fold_right_app. cbn. unfold stops. auto.
Qed.
Print Assumptions C46_stop.

(** chains compose: registering [a] then [b] is running [b]'s chain inside [a]'s *)
Theorem C46_compose : forall H (h : H) a b, apply_middleware h (a ++ b) = apply_middleware (apply_middleware h b) a.
Proof. intros. now rewrite !apply_fold, fold_right_app. Qed.
Print Assumptions C46_compose.

Example C46_nonvacuous : @apply_middleware (handler (E := unit) (A := nat) (R := bool)) (fun _ => ([0], true)) [around (fun _ => [1]) (fun _ => [2]); around (fun _ => [3]) (fun _ => [4])] tt = ([1; 3; 0; 4; 2], true).
Proof. reflexivity. Qed.
