(** C41: wildcard matching (internal/wildcard/wildcard.go), used by the web
    middlewares (basic auth skip paths, logger levels, rate limiting). *)
From Coq Require Import String List Ascii Bool Arith Lia.
Import ListNotations.
Open Scope list_scope.
Open Scope nat_scope.

(* ------------------------------------------------------------------ *)
(** * Specification *)
Definition bytes := list ascii.
Definition star : ascii := "*"%char.

(** [obtained p s]: [s] is obtained from [p] by replacing each [*] by some
    string and leaving every other character as it is. *)
Inductive obtained : bytes -> bytes -> Prop :=
| ob_nil : obtained [] []
| ob_char : forall c p s, c <> star -> obtained p s -> obtained (c :: p) (c :: s)
| ob_star : forall x p s, obtained p s -> obtained (star :: p) (x ++ s).

(* ------------------------------------------------------------------ *)
(** * Model *)
(** wildcard.go:7-16 [isWildPattern].  Go ranges over rune starts; a '*' byte
    is always a rune of its own, so this is "some byte is '*'". *)
Definition is_wild (p : bytes) : bool := existsb (Ascii.eqb star) p.

(** The two-dimensional table [dp] (wildcard.go:34-40): all false, updated cell by cell. *)
Definition table := nat -> nat -> bool.
Definition put (d : table) (i j : nat) (v : bool) : table :=
  fun a b => if (a =? i) && (b =? j) then v else d a b.
(** [for k := 0; k < n; k++ { body }] *)
Definition loop {S} (n : nat) (body : nat -> S -> S) (st : S) : S :=
  fold_left (fun st k => body k st) (seq 0 n) st.
Definition at_ (s : bytes) (i : nat) : ascii := nth i s zero.
Definition bytes_eqb (a b : bytes) : bool := if list_eq_dec ascii_dec a b then true else false.

(** wildcard.go:41 [dp[0][0] = true] *)
Definition dp_init : table := put (fun _ _ => false) 0 0 true.
(** wildcard.go:43-49, first column *)
Definition dp_col (p : bytes) (d : table) : table :=
  loop (length p) (fun i d => if Ascii.eqb (at_ p i) star then put d (i+1) 0 (d i 0) else put d (i+1) 0 false) d.
(** wildcard.go:51-53, first row *)
Definition dp_row (s : bytes) (d : table) : table :=
  loop (length s) (fun j d => put d 0 (j+1) false) d.
(** wildcard.go:56-71, the main double loop *)
Definition dp_cell (p s : bytes) (i j : nat) (d : table) : table :=
  let pc := at_ p i in let sc := at_ s j in
  if Ascii.eqb pc star then put d (i+1) (j+1) (d i j || d i (j+1) || d (i+1) j)
  else if Ascii.eqb pc sc then put d (i+1) (j+1) (d i j)
  else put d (i+1) (j+1) false.
Definition dp_main (p s : bytes) (d : table) : table :=
  loop (length p) (fun i d => loop (length s) (fun j d => dp_cell p s i j d) d) d.
(** wildcard.go:18-74 [Match] *)
Definition wild_match (p s : bytes) : bool :=
  if bytes_eqb p [star] then true
  else if bytes_eqb p [] then bytes_eqb s []
  else if negb (is_wild p) then bytes_eqb p s
  else dp_main p s (dp_row s (dp_col p dp_init)) (length p) (length s).

(* ------------------------------------------------------------------ *)
(** * Proofs *)
Lemma loop_inv {S} (P : nat -> S -> Prop) n body st :
  P 0 st -> (forall k st, k < n -> P k st -> P (k+1) (body k st)) -> P n (loop n body st).
Proof.
  intros H0 Hs. unfold loop.
  assert (G : forall m k st, k + m = n -> P k st -> P n (fold_left (fun st k => body k st) (seq k m) st)).
  { induction m as [|m IH]; intros k st' E Hk; cbn; [now replace n with k by lia|].
    apply IH; [lia|]. replace (Datatypes.S k) with (k+1) by lia. apply Hs; [lia|exact Hk]. }
  apply (G n 0 st); [lia|exact H0].
Qed.
Lemma put_eq d i j v : put d i j v i j = v.
Proof. unfold put. now rewrite !Nat.eqb_refl. Qed.
Lemma put_ne d i j v a b : a <> i \/ b <> j -> put d i j v a b = d a b.
Proof.
  intros H. unfold put. destruct (Nat.eqb_spec a i); destruct (Nat.eqb_spec b j); cbn; auto. lia.
Qed.
Lemma bytes_eqb_spec a b : bytes_eqb a b = true <-> a = b.
Proof. unfold bytes_eqb. destruct (list_eq_dec ascii_dec a b); split; congruence. Qed.

Lemma obtained_app p q s : obtained (p ++ q) s <-> exists x y, s = x ++ y /\ obtained p x /\ obtained q y.
Proof.
  split.
  - revert s. induction p as [|c p IH]; intros s H.
    + exists [], s. repeat split; [constructor|exact H].
    + cbn in H. inversion H as [|c' p' s' Hc Hs|x p' s' Hs]; subst.
      * destruct (IH _ Hs) as (a & b & -> & Ha & Hb). exists (c :: a), b. repeat split; [now constructor|exact Hb].
      * destruct (IH _ Hs) as (a & b & -> & Ha & Hb). exists (x ++ a), b. rewrite app_assoc. repeat split; [now constructor|exact Hb].
  - intros (x & y & -> & Hx & Hy). induction Hx; cbn; [exact Hy|now constructor|]. rewrite <- app_assoc. now constructor.
Qed.
Lemma obtained_last_char p c s : c <> star -> obtained (p ++ [c]) s <-> exists x, s = x ++ [c] /\ obtained p x.
Proof.
  intros Hc. rewrite obtained_app. split.
  - intros (x & y & -> & Hx & Hy). inversion Hy as [|? ? ? ? Hn|]; subst; [|congruence]. inversion Hn; subst. eauto.
  - intros (x & -> & Hx). exists x, [c]. repeat split; [exact Hx|]. constructor; [exact Hc|constructor].
Qed.
Lemma obtained_star_all x : obtained [star] x.
Proof. rewrite <- (app_nil_r x). constructor. constructor. Qed.
Lemma obtained_last_star p s : obtained (p ++ [star]) s <-> exists x y, s = x ++ y /\ obtained p x.
Proof.
  rewrite obtained_app. split.
  - intros (x & y & -> & Hx & _). eauto.
  - intros (x & y & -> & Hx). exists x, y. repeat split; [exact Hx|apply obtained_star_all].
Qed.
Lemma snoc_inj (a b : bytes) c d : a ++ [c] = b ++ [d] -> a = b /\ c = d.
Proof. apply app_inj_tail. Qed.
Lemma last_star_snoc p s d : obtained (p ++ [star]) (s ++ [d]) <->
  obtained p s \/ obtained p (s ++ [d]) \/ obtained (p ++ [star]) s.
Proof.
  split.
  - intros H. apply obtained_last_star in H as (x & y & E & Hx). destruct y as [|b y _] using rev_ind.
    + rewrite app_nil_r in E. subst x. auto.
    + rewrite app_assoc in E. apply snoc_inj in E as [-> _]. right. right. apply obtained_last_star. eauto.
  - intros H. apply obtained_last_star. destruct H as [H|[H|H]].
    + exists s, [d]. auto.
    + exists (s ++ [d]), []. rewrite app_nil_r. auto.
    + apply obtained_last_star in H as (x & y & -> & Hx). exists x, (y ++ [d]). now rewrite app_assoc.
Qed.
Lemma last_char_snoc p s c d : c <> star -> obtained (p ++ [c]) (s ++ [d]) <-> c = d /\ obtained p s.
Proof.
  intros Hc. rewrite obtained_last_char by exact Hc. split.
  - intros (x & E & Hx). apply snoc_inj in E as [-> ->]. auto.
  - intros [-> H]. eauto.
Qed.

Lemma firstn_S_nth (s : bytes) i : i < length s -> firstn (i+1) s = firstn i s ++ [at_ s i].
Proof.
  revert i. induction s as [|c s IH]; intros i H; [cbn in H; lia|]. destruct i as [|i]; [reflexivity|].
  cbn in *. f_equal. apply IH. lia.
Qed.

(** what a cell must hold *)
Definition good (p s : bytes) (d : table) (i j : nat) : Prop :=
  d i j = true <-> obtained (firstn i p) (firstn j s).

Lemma good_row0 p s d j : 0 < j <= length s -> d 0 j = false -> good p s d 0 j.
Proof.
  intros Hj E. unfold good. rewrite E. split; [discriminate|]. intros H. cbn in H. inversion H as [E'| |]. destruct j; [lia|]. destruct s; cbn in *; [lia|discriminate].
Qed.

(** first column *)
Lemma col_good p s : forall i j, (j = 0 -> i <= length p -> good p s (dp_col p dp_init) i 0) /\ (j > 0 -> dp_col p dp_init i j = false).
Proof.
  unfold dp_col.
  pose (P := fun n (d : table) => (forall i, i <= n -> good p s d i 0) /\ (forall i j, j > 0 -> d i j = false)).
  assert (H : P (length p) (loop (length p) (fun i d => if Ascii.eqb (at_ p i) star then put d (i+1) 0 (d i 0) else put d (i+1) 0 false) dp_init)).
  { apply loop_inv.
    - split.
      + intros i Hi. assert (i = 0) by lia. subst i. unfold good, dp_init. rewrite put_eq. cbn. split; [constructor|reflexivity].
      + intros i j Hj. unfold dp_init. rewrite put_ne by lia. reflexivity.
    - intros k d Hk [H1 H2].
      assert (Hk1 := firstn_S_nth p k Hk). destruct (Ascii.eqb_spec (at_ p k) star) as [E|E].
      + split; [|intros i j Hj; rewrite put_ne by lia; auto].
        intros i Hi. destruct (Nat.eq_dec i (k+1)) as [->|Hn].
        * unfold good. rewrite put_eq, Hk1, E. specialize (H1 k (le_n k)). unfold good in H1. rewrite H1. cbn [firstn].
          rewrite obtained_last_star. split; [intros H; exists [], []; auto|intros (x & y & Exy & Hx)].
          symmetry in Exy. apply app_eq_nil in Exy as [-> _]. exact Hx.
        * unfold good. rewrite put_ne by lia. apply H1. lia.
      + split; [|intros i j Hj; rewrite put_ne by lia; auto].
        intros i Hi. destruct (Nat.eq_dec i (k+1)) as [->|Hn].
        * unfold good. rewrite put_eq, Hk1. cbn [firstn]. split; [discriminate|]. rewrite obtained_last_char by exact E.
          intros (x & Ex & _). destruct x; discriminate.
        * unfold good. rewrite put_ne by lia. apply H1. lia. }
  destruct H as [H1 H2]. intros i j. split; [intros -> Hi; now apply H1|apply H2].
Qed.

Lemma wild_dp p s : dp_main p s (dp_row s (dp_col p dp_init)) (length p) (length s) = true <-> obtained p s.
Proof.
  set (d0 := dp_row s (dp_col p dp_init)).
  assert (B : (forall i, i <= length p -> good p s d0 i 0) /\ (forall j, j <= length s -> good p s d0 0 j)).
  { unfold d0, dp_row.
    pose (P := fun n (d : table) => (forall i, i <= length p -> good p s d i 0) /\ (forall j, 0 < j <= n -> d 0 j = false)).
    assert (H : P (length s) (loop (length s) (fun j d => put d 0 (j+1) false) (dp_col p dp_init))).
    { apply loop_inv.
      - split; [intros i Hi; now apply (proj1 (col_good p s i 0))|lia].
      - intros k d Hk [H1 H2]. split.
        + intros i Hi. unfold good. rewrite put_ne by lia. now apply H1.
        + intros j Hj. destruct (Nat.eq_dec j (k+1)) as [->|Hn]; [now rewrite put_eq|]. rewrite put_ne by lia. apply H2. lia. }
    destruct H as [H1 H2]. split; [exact H1|]. intros j Hj. destruct j; [apply H1; lia|]. apply good_row0; [lia|]. apply H2. lia. }
  unfold dp_main.
  pose (P := fun n (d : table) => forall i j, (i <= n \/ j = 0) -> i <= length p -> j <= length s -> good p s d i j).
  assert (H : P (length p) (loop (length p) (fun i d => loop (length s) (fun j d => dp_cell p s i j d) d) d0)).
  { apply loop_inv.
    - intros i j [Hi| ->] Hp Hs; [|now apply B]. assert (i = 0) by lia. subst i. now apply B.
    - intros k d Hk HP.
      pose (Q := fun m (d : table) => forall i j, (i <= k \/ j = 0 \/ (i = k+1 /\ j <= m)) -> i <= length p -> j <= length s -> good p s d i j).
      assert (HQ : Q (length s) (loop (length s) (fun j d => dp_cell p s k j d) d)).
      { apply loop_inv.
        - intros i j Hij Hp Hs. apply HP; lia.
        - intros m d' Hm HQ i j Hij Hp Hs.
          assert (Hp1 := firstn_S_nth p k Hk). assert (Hs1 := firstn_S_nth s m Hm).
          assert (Gij : good p s d' k m) by (apply HQ; lia).
          assert (Gij1 : good p s d' k (m+1)) by (apply HQ; lia).
          assert (Gi1j : good p s d' (k+1) m) by (apply HQ; lia).
          unfold good in Gij, Gij1, Gi1j. unfold good. unfold dp_cell.
          destruct (Nat.eq_dec i (k+1)) as [->|Hi]; [destruct (Nat.eq_dec j (m+1)) as [->|Hj]|].
          + destruct (Ascii.eqb_spec (at_ p k) star) as [E|E]; [|destruct (Ascii.eqb_spec (at_ p k) (at_ s m)) as [E'|E']]; rewrite put_eq, Hp1, Hs1.
            * rewrite E, last_star_snoc, !orb_true_iff, Gij, Gij1, Gi1j, Hp1, Hs1, E. tauto.
            * rewrite last_char_snoc, Gij by exact E. tauto.
            * rewrite last_char_snoc by exact E. split; [discriminate|tauto].
          + destruct (Ascii.eqb _ star); [|destruct (Ascii.eqb _ _)]; rewrite put_ne by lia; apply HQ; lia.
          + destruct (Ascii.eqb _ star); [|destruct (Ascii.eqb _ _)]; rewrite put_ne by lia; apply HQ; lia. }
      intros i j Hij Hp Hs. apply HQ; [|exact Hp|exact Hs]. lia. }
  specialize (H (length p) (length s) (or_introl (le_n _)) (le_n _) (le_n _)). unfold good in H. now rewrite !firstn_all in H.
Qed.

Lemma not_wild_eq p s : is_wild p = false -> obtained p s <-> p = s.
Proof.
  revert s. induction p as [|c p IH]; intros s H.
  - split; [inversion 1; reflexivity|intros <-; constructor].
  - unfold is_wild in H. cbn [existsb] in H. apply orb_false_iff in H as [Hc Hp]. apply Ascii.eqb_neq in Hc. split.
    + inversion 1; subst; [|congruence]. f_equal. now apply IH.
    + intros <-. constructor; [congruence|]. now apply IH.
Qed.

Theorem C41_wildcard : forall p s, wild_match p s = true <-> obtained p s.
Proof.
  intros p s. unfold wild_match.
  destruct (bytes_eqb p [star]) eqn:E1; [apply bytes_eqb_spec in E1; subst p; split; [intros _; apply obtained_star_all|reflexivity]|].
  destruct (bytes_eqb p []) eqn:E2.
  { apply bytes_eqb_spec in E2. subst p. rewrite bytes_eqb_spec. split; [intros ->; constructor|inversion 1; reflexivity]. }
  destruct (is_wild p) eqn:E3; cbn [negb]; [apply wild_dp|]. rewrite bytes_eqb_spec. symmetry. now apply not_wild_eq.
Qed.
Print Assumptions C41_wildcard.

(** the same, read through the words: a pattern splits at its stars *)
Theorem C41_star_matches_everything : forall s, wild_match [star] s = true.
Proof. intros s. apply C41_wildcard. apply obtained_star_all. Qed.
Print Assumptions C41_star_matches_everything.
Theorem C41_literal : forall p s, ~ In star p -> (wild_match p s = true <-> s = p).
Proof.
  intros p s H. rewrite C41_wildcard, not_wild_eq; [split; congruence|].
  unfold is_wild. destruct (existsb (Ascii.eqb star) p) eqn:E; [|reflexivity]. apply existsb_exists in E as (x & Hx & Ex). apply Ascii.eqb_eq in Ex. congruence.
Qed.
Print Assumptions C41_literal.

(** non-vacuity: both answers occur on patterns with stars inside *)
Example C41_nonvacuous :
  wild_match (list_ascii_of_string "GET /*/x"%string) (list_ascii_of_string "GET /a/b/x"%string) = true /\
  wild_match (list_ascii_of_string "a*b*c"%string) (list_ascii_of_string "axbxd"%string) = false /\
  wild_match (list_ascii_of_string "a*b*c"%string) (list_ascii_of_string "abc"%string) = true.
Proof. vm_compute. auto. Qed.
