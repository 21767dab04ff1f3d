(** C45: locks (locker/inmemory.go, locker/postgres.go).  The scheduler takes one per
    scheduled job and tick (internal/coordinator/scheduler). *)
From Coq Require Import String List ZArith Bool Lia Arith.
Import ListNotations.
Open Scope list_scope.

(* ------------------------------------------------------------------ *)
(** * Specification: what callers observe *)
(** [AcquireLock key] either returns a lock handle (numbered in order of creation) or an
    error; [ReleaseLock] on a handle succeeds or errs; [ELost]: the database dropped the
    session behind the handle (context cancelled, connection lost). *)
Inductive event :=
| EAcq (k : string) (r : option nat)
| ERel (h : nat) (ok : bool)
| ELost (h : nat).
Definition trace := list event.
(** holder [h] acquired [k] and has not released (or lost) it since *)
Definition holds (tr : trace) (h : nat) (k : string) : Prop :=
  exists tr1 tr2, tr = tr1 ++ EAcq k (Some h) :: tr2 /\ (forall b, ~ In (ERel h b) tr2) /\ ~ In (ELost h) tr2.
(** callers release each handle at most once *)
Definition released_once (tr : trace) : Prop :=
  forall tr1 h b tr2, tr = tr1 ++ ERel h b :: tr2 -> forall b', ~ In (ERel h b') tr2.

(* ------------------------------------------------------------------ *)
(** * Model *)
(** locker/inmemory.go:10-13: the [locks] map (a set of keys) and the handles given out
    (inmemLock{key}, inmemory.go:15-18), by number. *)
Record inmem := mkInmem { im_locks : list string; im_keys : list string }.
Definition mem (k : string) (l : list string) : bool := existsb (String.eqb k) l.
Definition remove_key (k : string) (l : list string) : list string := filter (fun x => negb (String.eqb k x)) l.
Inductive inmem_step : inmem -> event -> inmem -> Prop :=
| im_acq_ok : forall s k, mem k (im_locks s) = false ->                     (* inmemory.go:29-37 *)
    inmem_step s (EAcq k (Some (length (im_keys s)))) (mkInmem (k :: im_locks s) (im_keys s ++ [k]))
| im_acq_err : forall s k, mem k (im_locks s) = true -> inmem_step s (EAcq k None) s
| im_rel_ok : forall s h k, nth_error (im_keys s) h = Some k -> mem k (im_locks s) = true ->   (* inmemory.go:39-47 *)
    inmem_step s (ERel h true) (mkInmem (remove_key k (im_locks s)) (im_keys s))
| im_rel_err : forall s h k, nth_error (im_keys s) h = Some k -> mem k (im_locks s) = false -> inmem_step s (ERel h false) s.
Definition inmem0 := mkInmem [] [].
Inductive inmem_run : trace -> inmem -> Prop :=
| ir_nil : inmem_run [] inmem0
| ir_snoc : forall tr s e s', inmem_run tr s -> inmem_step s e s' -> inmem_run (tr ++ [e]) s'.

(** locker/postgres.go: each handle is an open transaction holding the advisory lock of
    [hashKey key] (postgres.go:87-110); [pg_try_advisory_xact_lock] succeeds iff no other
    transaction holds it; [ReleaseLock] rolls back (postgres.go:51-53), which errs
    (sql.ErrTxDone) on a finished transaction.  The hash (SHA-256 prefix) is arbitrary. *)
Section Postgres.
Variable hash : string -> Z.
Record pg := mkPg { pg_locks : list (Z * nat); pg_next : nat; pg_open : list nat }.
Definition pg_free (x : Z) (s : pg) : bool := negb (existsb (fun p => Z.eqb x (fst p)) (pg_locks s)).
Definition pg_end (h : nat) (s : pg) : pg :=
  mkPg (filter (fun p => negb (h =? snd p)%nat) (pg_locks s)) (pg_next s) (filter (fun x => negb (h =? x)%nat) (pg_open s)).
Inductive pg_step : pg -> event -> pg -> Prop :=
| pg_acq_ok : forall s k, pg_free (hash k) s = true ->
    pg_step s (EAcq k (Some (pg_next s))) (mkPg ((hash k, pg_next s) :: pg_locks s) (S (pg_next s)) (pg_next s :: pg_open s))
| pg_acq_err : forall s k, pg_free (hash k) s = false -> pg_step s (EAcq k None) s
| pg_acq_fault : forall s k, pg_step s (EAcq k None) s                      (* database errors *)
| pg_rel_ok : forall s h, In h (pg_open s) -> pg_step s (ERel h true) (pg_end h s)
| pg_rel_done : forall s h, h < pg_next s -> ~ In h (pg_open s) -> pg_step s (ERel h false) s
| pg_rel_fault : forall s h, In h (pg_open s) -> pg_step s (ERel h false) (pg_end h s)   (* the connection broke: the server drops the session *)
| pg_lost : forall s h, In h (pg_open s) -> pg_step s (ELost h) (pg_end h s).
Definition pg0 := mkPg [] 0 [].
Inductive pg_run : trace -> pg -> Prop :=
| pr_nil : pg_run [] pg0
| pr_snoc : forall tr s e s', pg_run tr s -> pg_step s e s' -> pg_run (tr ++ [e]) s'.

(* ------------------------------------------------------------------ *)
(** * Proofs *)
Lemma holds_snoc tr e h k : holds (tr ++ [e]) h k <->
  (e = EAcq k (Some h)) \/ (holds tr h k /\ (forall b, e <> ERel h b) /\ e <> ELost h).
Proof.
  split.
  - intros (tr1 & tr2 & E & H1 & H2). destruct tr2 as [|x tr2 _] using rev_ind.
    + apply app_inj_tail in E as [_ ->]. now left.
    + rewrite app_comm_cons, app_assoc in E. apply app_inj_tail in E as [-> ->]. right. split.
      * exists tr1, tr2. split; [reflexivity|]. split; [intros b Hin; apply (H1 b); apply in_or_app; auto|intros Hin; apply H2; apply in_or_app; auto].
      * split; [intros b ->; apply (H1 b); apply in_or_app; right; now left|intros ->; apply H2; apply in_or_app; right; now left].
  - intros [->|(H & H1 & H2)]; [exists tr, []; repeat split; auto|].
    destruct H as (tr1 & tr2 & -> & H3 & H4). exists tr1, (tr2 ++ [e]). rewrite <- app_assoc. split; [reflexivity|]. split.
    + intros b Hin. apply in_app_or in Hin as [Hin|[E|[]]]; [eapply H3; eauto|]. now apply (H1 b).
    + intros Hin. apply in_app_or in Hin as [Hin|[E|[]]]; [eapply H4; eauto|]. now apply H2.
Qed.

Lemma mem_in k l : mem k l = true <-> In k l.
Proof. unfold mem. rewrite existsb_exists. split; [intros (x & H & E); apply String.eqb_eq in E; now subst|intros H; exists k; split; [exact H|apply String.eqb_refl]]. Qed.
Lemma mem_out k l : mem k l = false <-> ~ In k l.
Proof. rewrite <- mem_in. destruct (mem k l); split; congruence. Qed.
Lemma remove_in k x l : In x (remove_key k l) <-> In x l /\ x <> k.
Proof. unfold remove_key. rewrite filter_In. destruct (String.eqb_spec k x); cbn; split; intros [? ?]; split; congruence. Qed.

Record im_inv (tr : trace) (s : inmem) : Prop := {
  ii_keys : forall h k, In (EAcq k (Some h)) tr -> nth_error (im_keys s) h = Some k;
  ii_lt : forall h b, In (ERel h b) tr -> h < length (im_keys s);
  ii_holds : forall h k, holds tr h k -> In k (im_locks s);
  ii_excl : forall h h' k, holds tr h k -> holds tr h' k -> h = h';
  ii_held : forall k, In k (im_locks s) -> exists h, holds tr h k;
  ii_acq : forall h k, nth_error (im_keys s) h = Some k -> In (EAcq k (Some h)) tr;
  ii_cover : forall h k, nth_error (im_keys s) h = Some k -> holds tr h k \/ (exists b, In (ERel h b) tr) }.

Lemma released_once_prefix tr e : released_once (tr ++ [e]) -> released_once tr.
Proof.
  intros H tr1 h b tr2 -> b' Hin. apply (H tr1 h b (tr2 ++ [e])) with (b' := b'); [now rewrite <- app_assoc|]. apply in_or_app; auto.
Qed.
Lemma released_once_last tr h b : released_once (tr ++ [ERel h b]) -> forall b', ~ In (ERel h b') tr.
Proof.
  intros H b' Hin. apply in_split in Hin as (l1 & l2 & ->). apply (H l1 h b' (l2 ++ [ERel h b])) with (b' := b); [now rewrite <- app_assoc|].
  apply in_or_app; right; now left.
Qed.
Lemma holds_acq tr h k : holds tr h k -> In (EAcq k (Some h)) tr.
Proof. intros (a & b & -> & _). apply in_or_app; right; now left. Qed.

Lemma inmem_invariant tr s : inmem_run tr s -> released_once tr -> im_inv tr s.
Proof.
  induction 1 as [|tr s e s' Hr IH Hs]; intros Ho.
  - constructor; cbn; try tauto; try (intros h k (a & b & E & _); destruct a; discriminate); try (intros h h' k (a & b & E & _); destruct a; discriminate);
      intros [|h] k E; discriminate.
  - specialize (IH (released_once_prefix _ _ Ho)). destruct IH as [I1 I2 I3 I4 I5 I6 I7].
    inversion Hs as [s0 k Hm|s0 k Hm|s0 h k Hn Hm|s0 h k Hn Hm]; subst.
    + apply mem_out in Hm.
      assert (Hnew : forall k', ~ In (EAcq k' (Some (length (im_keys s)))) tr).
      { intros k' Hin. apply I1 in Hin. assert (nth_error (im_keys s) (length (im_keys s)) = None) by (apply nth_error_None; lia). congruence. }
      assert (Hlt : forall h k', nth_error (im_keys s) h = Some k' -> nth_error (im_keys s ++ [k]) h = Some k').
      { intros h k' E. rewrite nth_error_app1; [exact E|]. apply nth_error_Some. congruence. }
      assert (Hcases : forall h k', nth_error (im_keys s ++ [k]) h = Some k' -> nth_error (im_keys s) h = Some k' \/ (h = length (im_keys s) /\ k' = k)).
      { intros h k' E. destruct (Nat.lt_ge_cases h (length (im_keys s))); [left; now rewrite nth_error_app1 in E|].
        rewrite nth_error_app2 in E by lia. destruct (h - length (im_keys s)) eqn:Ed; cbn in E; [|destruct n; discriminate].
        right. split; [lia|congruence]. }
      constructor; cbn [im_keys im_locks].
      * intros h k' Hin. apply in_app_or in Hin as [Hin|[E|[]]]; [auto|]. injection E as <- <-. rewrite nth_error_app2, Nat.sub_diag by lia. reflexivity.
      * intros h b Hin. apply in_app_or in Hin as [Hin|[E|[]]]; [|discriminate]. apply I2 in Hin. rewrite app_length. cbn. lia.
      * intros h k' H. apply holds_snoc in H as [E|(H & _)]; [injection E as <- <-; now left|right; eauto].
      * intros h h' k' H H'. apply holds_snoc in H as [E|(H & _)]; apply holds_snoc in H' as [E'|(H' & _)].
        -- congruence.
        -- injection E as <- <-. apply I3 in H'. contradiction.
        -- injection E' as <- <-. apply I3 in H. contradiction.
        -- eauto.
      * intros k' [<-|H]; [exists (length (im_keys s)); apply holds_snoc; now left|]. destruct (I5 k' H) as (h & Hh). exists h. apply holds_snoc. right. repeat split; [exact Hh|discriminate|discriminate].
      * intros h k' E. apply in_or_app. destruct (Hcases h k' E) as [E'|[-> ->]]; [left; eauto|right; now left].
      * intros h k' E. destruct (Hcases h k' E) as [E'|[-> ->]]; [|left; apply holds_snoc; now left].
        destruct (I7 h k' E') as [H|(b & H)]; [left; apply holds_snoc; right; repeat split; [exact H|discriminate|discriminate]|right; exists b; apply in_or_app; auto].
    + assert (T : forall h k', holds (tr ++ [EAcq k None]) h k' <-> holds tr h k').
      { intros h k'. rewrite holds_snoc. split; [intros [E|[H _]]; [discriminate|exact H]|intros H; right; repeat split; [exact H|discriminate|discriminate]]. }
      constructor.
      * intros h k' Hin. apply in_app_or in Hin as [Hin|[E|[]]]; [auto|discriminate].
      * intros h b Hin. apply in_app_or in Hin as [Hin|[E|[]]]; [eauto|discriminate].
      * intros h k' H. apply T in H. eauto.
      * intros h h' k' H H'. apply T in H. apply T in H'. eauto.
      * intros k' H. destruct (I5 k' H) as (h & Hh). exists h. now apply T.
      * intros h k' E. apply in_or_app; auto.
      * intros h k' E. destruct (I7 _ _ E) as [H|(b & H)]; [left; now apply T|right; exists b; apply in_or_app; auto].
    + (* successful release of h, for the first time: h holds k *)
      pose proof (released_once_last _ _ _ Ho) as Hfirst.
      assert (Hh : holds tr h k) by (destruct (I7 h k Hn) as [H|(b & H)]; [exact H|exfalso; eapply Hfirst; eauto]).
      assert (T : forall h' k', holds (tr ++ [ERel h true]) h' k' <-> holds tr h' k' /\ h' <> h).
      { intros h' k'. rewrite holds_snoc. split.
        - intros [E|(H & H1 & _)]; [discriminate|]. split; [exact H|]. intros ->. now apply (H1 true).
        - intros [H H']. right. split; [exact H|]. split; [intros b E; congruence|discriminate]. }
      constructor; cbn [im_keys im_locks].
      * intros h' k' Hin. apply in_app_or in Hin as [Hin|[E|[]]]; [auto|discriminate].
      * intros h' b Hin. apply in_app_or in Hin as [Hin|[E|[]]]; [eauto|]. injection E as <- _. apply nth_error_Some. congruence.
      * intros h' k' H. apply T in H as [H Hne]. apply remove_in. split; [eauto|]. intros ->. apply Hne. eauto.
      * intros h1 h2 k' H1 H2. apply T in H1 as [H1 _]. apply T in H2 as [H2 _]. eauto.
      * intros k' H. apply remove_in in H as [H Hne]. destruct (I5 k' H) as (h' & Hh'). exists h'. apply T. split; [exact Hh'|]. intros ->.
        apply holds_acq, I1 in Hh'. congruence.
      * intros h' k' E. apply in_or_app; auto.
      * intros h' k' E. destruct (Nat.eq_dec h' h) as [->|Hne]; [right; exists true; apply in_or_app; right; now left|].
        destruct (I7 h' k' E) as [H|(b & H)]; [left; apply T; auto|right; exists b; apply in_or_app; auto].
    + pose proof (released_once_last _ _ _ Ho) as Hfirst.
      destruct (I7 h k Hn) as [H|(b & H)]; [|exfalso; eapply Hfirst; eauto]. apply I3 in H. apply mem_out in Hm. contradiction.
Qed.

(** In-memory locker: if every handle is released at most once, two holders never hold the
    same key, and [AcquireLock] succeeds exactly on the keys nobody holds; releasing a held lock succeeds. *)
Theorem C45_inmemory_exclusive : forall tr s,
  inmem_run tr s -> released_once tr ->
  (forall h h' k, holds tr h k -> holds tr h' k -> h = h') /\
  (forall k r s', inmem_step s (EAcq k r) s' -> (r = None <-> exists h, holds tr h k)) /\
  (forall h k ok s', holds tr h k -> inmem_step s (ERel h ok) s' -> ok = true /\ forall s'', ~ inmem_step s' (EAcq k None) s'').
Proof.
  intros tr s Hr Ho. destruct (inmem_invariant tr s Hr Ho) as [I1 I2 I3 I4 I5 I6 I7]. split; [exact I4|]. split.
  - intros k r s' Hs. inversion Hs as [s0 k0 Hm|s0 k0 Hm| |]; subst.
    + apply mem_out in Hm. split; [discriminate|]. intros (h & H). apply I3 in H. contradiction.
    + apply mem_in in Hm. split; [intros _; auto|reflexivity].
  - intros h k ok s' Hh Hs. pose proof (I3 _ _ Hh) as Hin. pose proof (I1 _ _ (holds_acq _ _ _ Hh)) as Hk.
    inversion Hs as [| |s0 h0 k0 Hn Hm|s0 h0 k0 Hn Hm]; subst; (assert (k0 = k) by congruence); subst k0.
    + split; [reflexivity|]. intros s'' H. inversion H as [|s1 k1 Hm'| |]; subst. cbn in Hm'. apply mem_in, remove_in in Hm'. tauto.
    + apply mem_out in Hm. contradiction.
Qed.

(** Postgres: exclusion holds for every history, double releases included. *)
Record pg_inv (tr : trace) (s : pg) : Prop := {
  pi_fresh : forall k h, In (EAcq k (Some h)) tr -> h < pg_next s;
  pi_lock : forall h k, holds tr h k -> In (hash k, h) (pg_locks s);
  pi_open : forall h k, holds tr h k -> In h (pg_open s);
  pi_back : forall x h, In (x, h) (pg_locks s) -> exists k, hash k = x /\ holds tr h k;
  pi_uniq : forall x h h', In (x, h) (pg_locks s) -> In (x, h') (pg_locks s) -> h = h' }.
Lemma pg_free_iff x s : pg_free x s = true <-> forall h, ~ In (x, h) (pg_locks s).
Proof.
  unfold pg_free. rewrite negb_true_iff. split.
  - intros H h Hin. assert (E : existsb (fun p => (x =? fst p)%Z) (pg_locks s) = true) by (apply existsb_exists; exists (x, h); split; [exact Hin|apply Z.eqb_refl]). congruence.
  - intros H. destruct (existsb _ _) eqn:E; [|reflexivity]. apply existsb_exists in E as ([y h] & Hin & E). cbn in E. apply Z.eqb_eq in E. subst y. exfalso. now apply (H h).
Qed.
Lemma pg_end_lock x h h0 s : In (x, h) (pg_locks (pg_end h0 s)) <-> In (x, h) (pg_locks s) /\ h <> h0.
Proof. cbn. rewrite filter_In. cbn. destruct (Nat.eqb_spec h0 h); cbn; split; intros [? ?]; split; congruence. Qed.
Lemma pg_end_open h h0 s : In h (pg_open (pg_end h0 s)) <-> In h (pg_open s) /\ h <> h0.
Proof. cbn. rewrite filter_In. destruct (Nat.eqb_spec h0 h); cbn; split; intros [? ?]; split; congruence. Qed.
Lemma pg_invariant tr s : pg_run tr s -> pg_inv tr s.
Proof.
  induction 1 as [|tr s e s' Hr IH Hs].
  - constructor; cbn; try tauto; intros h k (a & b & E & _); destruct a; discriminate.
  - destruct IH as [I1 I2 I3 I4 I5].
    assert (Same : forall e, (forall k h, e <> EAcq k (Some h)) -> (forall h b, e = ERel h b -> forall k, ~ holds tr h k) -> (forall h, e <> ELost h) -> pg_inv (tr ++ [e]) s).
    { intros e' N1 N2 N3. assert (T : forall h k, holds (tr ++ [e']) h k <-> holds tr h k).
      { intros h k. rewrite holds_snoc. split; [intros [E|[H _]]; [now apply N1 in E|exact H]|]. intros H. right. split; [exact H|]. split; [intros b E; eapply N2; eauto|apply N3]. }
      constructor.
      - intros k h Hin. apply in_app_or in Hin as [Hin|[E|[]]]; [eauto|]. now apply N1 in E.
      - intros h k H. apply T in H. auto.
      - intros h k H. apply T in H. eauto.
      - intros x h H. destruct (I4 _ _ H) as (k & E & Hk). exists k. split; [exact E|]. now apply T.
      - exact I5. }
    assert (End : forall e h0, (e = ELost h0 \/ exists b, e = ERel h0 b) -> pg_inv (tr ++ [e]) (pg_end h0 s)).
    { intros e' h0 He. assert (T : forall h k, holds (tr ++ [e']) h k <-> holds tr h k /\ h <> h0).
      { intros h k. rewrite holds_snoc. split.
        - intros [E|(H & H1 & H2)]; [destruct He as [->|(b & ->)]; discriminate|]. split; [exact H|]. intros ->. destruct He as [->|(b & ->)]; [now apply H2|now apply (H1 b)].
        - intros [H Hne]. right. split; [exact H|]. destruct He as [->|(b & ->)]; split; try discriminate; [congruence|]. intros b' E. congruence. }
      constructor.
      - intros k h Hin. apply in_app_or in Hin as [Hin|[E|[]]]; [cbn; eauto|]. destruct He as [->|(b & ->)]; discriminate.
      - intros h k H. apply T in H as [H Hne]. apply pg_end_lock. auto.
      - intros h k H. apply T in H as [H Hne]. apply pg_end_open. eauto.
      - intros x h H. apply pg_end_lock in H as [H Hne]. destruct (I4 _ _ H) as (k & E & Hk). exists k. split; [exact E|]. apply T. auto.
      - intros x h h' H H'. apply pg_end_lock in H as [H _]. apply pg_end_lock in H' as [H' _]. eauto. }
    inversion Hs as [s0 k Hf|s0 k Hf|s0 k|s0 h Hop|s0 h Hlt Hop|s0 h Hop|s0 h Hop]; subst.
    + pose proof (proj1 (pg_free_iff _ _) Hf) as Hfr. constructor; cbn [pg_locks pg_next pg_open].
      * intros k' h Hin. apply in_app_or in Hin as [Hin|[E|[]]]; [apply I1 in Hin; lia|]. injection E as <- <-. lia.
      * intros h k' H. apply holds_snoc in H as [E|[H _]]; [injection E as <- <-; now left|right; auto].
      * intros h k' H. apply holds_snoc in H as [E|[H _]]; [injection E as <- <-; now left|right; eauto].
      * intros x h [E|H]; [injection E as <- <-; exists k; split; [reflexivity|apply holds_snoc; now left]|].
        destruct (I4 _ _ H) as (k' & E & Hk). exists k'. split; [exact E|]. apply holds_snoc. right. repeat split; [exact Hk|discriminate|discriminate].
      * intros x h h' [E|H] [E'|H']; try congruence; [injection E as <- <-; exfalso; eapply Hfr; eauto|injection E' as <- <-; exfalso; eapply Hfr; eauto|eauto].
    + apply Same; discriminate.
    + apply Same; discriminate.
    + apply End. eauto.
    + apply Same; try discriminate. intros h' b E k Hk. injection E as <- <-. apply I3 in Hk. contradiction.
    + apply End. eauto.
    + apply End. auto.
Qed.
Theorem C45_postgres_exclusive : forall tr s,
  pg_run tr s ->
  (forall h h' k k', holds tr h k -> holds tr h' k' -> hash k = hash k' -> h = h') /\
  (forall k h s', pg_step s (EAcq k (Some h)) s' -> forall h', ~ holds tr h' k) /\
  (forall k, (forall h' k', holds tr h' k' -> hash k' <> hash k) -> exists h s', pg_step s (EAcq k (Some h)) s').
Proof.
  intros tr s Hr. destruct (pg_invariant tr s Hr) as [I1 I2 I3 I4 I5]. split; [|split].
  - intros h h' k k' H H' E. apply I2 in H. apply I2 in H'. rewrite E in H. eauto.
  - intros k h s' Hs h' Hh'. inversion Hs as [s0 k0 Hf| | | | | |]; subst. apply (proj1 (pg_free_iff (hash k) s) Hf h'). auto.
  - intros k H. exists (pg_next s). eexists. apply pg_acq_ok. apply pg_free_iff. intros h Hin. destruct (I4 _ _ Hin) as (k' & E & Hk). now apply (H h k').
Qed.
End Postgres.
Print Assumptions C45_inmemory_exclusive.
Print Assumptions C45_postgres_exclusive.

(** The once-only hypothesis is necessary: a second release of the same in-memory handle
    succeeds when somebody else holds the key, and lets a third party in. *)
Theorem C45_double_release_refuted : exists tr s h h' k,
  inmem_run tr s /\ holds tr h k /\ holds tr h' k /\ h <> h'.
Proof.
  exists [EAcq "k" (Some 0); ERel 0 true; EAcq "k" (Some 1); ERel 0 true; EAcq "k" (Some 2)], (mkInmem ["k"%string] ["k"; "k"; "k"]%string), 1, 2, "k"%string.
  split.
  { change [EAcq "k" (Some 0); ERel 0 true; EAcq "k" (Some 1); ERel 0 true; EAcq "k" (Some 2)] with (((((([] ++ [EAcq "k" (Some 0)]) ++ [ERel 0 true]) ++ [EAcq "k" (Some 1)]) ++ [ERel 0 true]) ++ [EAcq "k" (Some 2)])).
    eapply ir_snoc; [eapply ir_snoc; [eapply ir_snoc; [eapply ir_snoc; [eapply ir_snoc; [apply ir_nil|]|]|]|]|].
    - apply (im_acq_ok inmem0 "k"). reflexivity.
    - eapply im_rel_ok; reflexivity.
    - apply (im_acq_ok (mkInmem [] ["k"%string]) "k"). reflexivity.
    - eapply im_rel_ok; reflexivity.
    - apply (im_acq_ok (mkInmem [] ["k"; "k"]%string) "k"). reflexivity. }
  split; [|split; [|discriminate]].
  - exists [EAcq "k" (Some 0); ERel 0 true], [ERel 0 true; EAcq "k" (Some 2)]. split; [reflexivity|]. split; [intros b [E|[E|[]]]; discriminate|intros [E|[E|[]]]; discriminate].
  - exists [EAcq "k" (Some 0); ERel 0 true; EAcq "k" (Some 1); ERel 0 true], []. split; [reflexivity|]. split; [intros b []|intros []].
Qed.
Print Assumptions C45_double_release_refuted.

Example C45_nonvacuous : exists s, inmem_run [EAcq "k" (Some 0); EAcq "l" (Some 1); EAcq "k" None; ERel 0 true] s /\
  released_once [EAcq "k" (Some 0); EAcq "l" (Some 1); EAcq "k" None; ERel 0 true] /\ holds [EAcq "k" (Some 0); EAcq "l" (Some 1); EAcq "k" None; ERel 0 true] 1 "l".
Proof.
  eexists. split; [|split].
  - change [EAcq "k" (Some 0); EAcq "l" (Some 1); EAcq "k" None; ERel 0 true] with (((([] ++ [EAcq "k" (Some 0)]) ++ [EAcq "l" (Some 1)]) ++ [EAcq "k" None]) ++ [ERel 0 true]).
    eapply ir_snoc; [eapply ir_snoc; [eapply ir_snoc; [eapply ir_snoc; [apply ir_nil|]|]|]|].
    + apply (im_acq_ok inmem0 "k"). reflexivity.
    + apply (im_acq_ok (mkInmem ["k"%string] ["k"%string]) "l"). reflexivity.
    + apply im_acq_err. reflexivity.
    + eapply im_rel_ok; reflexivity.
  - intros tr1 h b tr2 E b' Hin. do 4 (destruct tr1 as [|? tr1]; [inversion E; subst; contradiction|apply (f_equal (@tl event)) in E; cbn in E]). destruct tr1; discriminate.
  - exists [EAcq "k" (Some 0)], [EAcq "k" None; ERel 0 true]. split; [reflexivity|]. split; [intros b [E|[E|[]]]; discriminate|intros [E|[E|[]]]; discriminate].
Qed.
