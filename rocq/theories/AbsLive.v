(** Proofs for C72, first part: an abstract picture of the stored jobs and tasks and of the messages in flight, its invariant, and a
    measure that every step decreases.  Statement: SpecRun.v, theorem: PropsRun.v, relation to the handlers: RunSim.v. *)
From Coq Require Import List ZArith NArith Bool Lia Permutation Wellfounded.
Import ListNotations.
Open Scope list_scope.
Open Scope Z_scope.

(** ** Multisets of levels *)
Section Multiset.
Local Open Scope nat_scope.
(** one element is replaced by smaller ones *)
Definition mless (m' m : list nat) : Prop :=
  exists x k new, Permutation m (x :: k) /\ Permutation m' (new ++ k) /\ Forall (fun y => y < x) new.

Lemma mless_perm m1 m2 m1' m2' : Permutation m1 m2 -> Permutation m1' m2' -> mless m1' m1 -> mless m2' m2.
Proof. intros P P' (x & k & new & A & B & C). exists x, k, new. split; [now rewrite <- P|]. split; [now rewrite <- P'|exact C]. Qed.
Lemma Acc_perm m1 m2 : Permutation m1 m2 -> Acc mless m1 -> Acc mless m2.
Proof. intros P [H]. constructor. intros y Hy. apply H. eapply mless_perm; [symmetry; exact P|reflexivity|exact Hy]. Qed.

Lemma Acc_cons x : (forall y, y < x -> forall m, Acc mless m -> Acc mless (y :: m)) -> forall m, Acc mless m -> Acc mless (x :: m).
Proof.
  intros IHx m Hm. induction Hm as [m Hm IH]. constructor. intros n (z & k & new & A & B & C).
  assert (Hz : In z (x :: m)) by (rewrite A; left; reflexivity). destruct Hz as [->|Hz].
  - apply Permutation_cons_inv in A. apply (Acc_perm (new ++ m)); [rewrite B, A; reflexivity|].
    clear B. induction C as [|y new Hy Hnew IHn]; [constructor; exact Hm|]. cbn. apply IHx; assumption.
  - apply in_split in Hz as (l1 & l2 & ->). set (k' := l1 ++ l2).
    assert (E1 : Permutation (l1 ++ z :: l2) (z :: k')) by (symmetry; apply Permutation_middle).
    assert (E2 : Permutation (x :: k') k).
    { apply (Permutation_cons_inv (a := z)). rewrite <- A, E1. apply perm_swap. }
    apply (Acc_perm (x :: new ++ k')); [rewrite B, <- E2; apply Permutation_middle|].
    apply IH. exists z, k', new. split; [exact E1|]. split; [reflexivity|exact C].
Qed.
Lemma Acc_all m : Acc mless m.
Proof.
  induction m as [|x m IH].
  - constructor. intros n (x & k & new & A & _). apply Permutation_nil in A. discriminate A.
  - revert m IH. induction x as [x IHx] using lt_wf_ind. intros m Hm. apply Acc_cons; auto.
Qed.
Lemma mless_wf : well_founded mless. Proof. exact Acc_all. Qed.

Inductive mplus : list nat -> list nat -> Prop :=
| mp1 a b : mless a b -> mplus a b
| mpS a b c : mplus a b -> mless b c -> mplus a c.
Lemma mplus_trans a b c : mplus a b -> mplus b c -> mplus a c.
Proof. intros H1 H2. induction H2 as [b c H|b d c H IH H']; [eapply mpS; eassumption|]. eapply mpS; [apply IH; exact H1|exact H']. Qed.
Lemma mplus_wf : well_founded mplus.
Proof.
  intros a. induction (mless_wf a) as [a _ IH]. constructor. intros b H.
  remember a as a0 eqn:E. induction H as [b a' H|b c a' H IH' H']; subst a'; [apply IH; exact H|].
  specialize (IH c H'). destruct IH as [IH]. apply IH. exact H.
Qed.
Lemma mless_intro x k new : Forall (fun y => y < x) new -> mless (new ++ k) (x :: k).
Proof. intros H. exists x, k, new. split; [reflexivity|]. split; [reflexivity|exact H]. Qed.
Lemma mplus_perm a a' b b' : Permutation a a' -> Permutation b b' -> mplus a b -> mplus a' b'.
Proof.
  intros Pa Pb H. revert a' b' Pa Pb. induction H as [a b H|a b c H IH H']; intros a' b' Pa Pb.
  - apply mp1. eapply mless_perm; eassumption.
  - eapply mpS; [apply IH; [exact Pa|reflexivity]|]. eapply mless_perm; [exact Pb|reflexivity|exact H'].
Qed.
End Multiset.

(** ** Tables with keys *)
Section Keyed.
Context {T : Type}.
Variable key : T -> N.
Definition kfind (i : N) (l : list T) : option T := find (fun x => N.eqb (key x) i) l.
Definition kput (u : T) (l : list T) : list T := map (fun x => if N.eqb (key x) (key u) then u else x) l.
Lemma kfind_some i l x : kfind i l = Some x -> In x l /\ key x = i.
Proof. intros H. apply find_some in H as [A B]. apply N.eqb_eq in B. auto. Qed.
Lemma kfind_in l x : NoDup (map key l) -> In x l -> kfind (key x) l = Some x.
Proof.
  induction l as [|y l IH]; [easy|]. intros Hn [->|Hin]; unfold kfind; cbn.
  - now rewrite N.eqb_refl.
  - inversion Hn as [|? ? Hy Hn']; subst. destruct (N.eqb (key y) (key x)) eqn:E.
    + apply N.eqb_eq in E. exfalso. apply Hy. rewrite E. now apply in_map.
    + now apply IH.
Qed.
Lemma kfind_none i l : kfind i l = None <-> ~ In i (map key l).
Proof.
  split.
  - intros H Hin. apply in_map_iff in Hin as (x & <- & Hin). apply (find_none _ _ H) in Hin. now rewrite N.eqb_refl in Hin.
  - intros H. destruct (kfind i l) as [x|] eqn:E; [|reflexivity]. exfalso. apply kfind_some in E as [A <-]. apply H. now apply in_map.
Qed.
Lemma kput_keys u l : map key (kput u l) = map key l.
Proof.
  unfold kput. rewrite map_map. apply map_ext. intros x. destruct (N.eqb (key x) (key u)) eqn:E; [|reflexivity]. apply N.eqb_eq in E. now symmetry.
Qed.
Lemma kput_in u l x : In x (kput u l) -> (x = u /\ In (key u) (map key l)) \/ (In x l /\ key x <> key u).
Proof.
  intros H. apply in_map_iff in H as (y & E & Hin). destruct (N.eqb (key y) (key u)) eqn:Ek.
  - left. split; [now symmetry|]. apply N.eqb_eq in Ek. rewrite <- Ek. now apply in_map.
  - right. subst y. split; [exact Hin|]. now apply N.eqb_neq.
Qed.
Lemma kput_other u l x : In x l -> key x <> key u -> In x (kput u l).
Proof. intros H E. apply in_map_iff. exists x. split; [|exact H]. apply N.eqb_neq in E. now rewrite E. Qed.
Lemma kput_mem u l : In (key u) (map key l) -> In u (kput u l).
Proof. intros H. apply in_map_iff in H as (x & E & H). apply in_map_iff. exists x. rewrite E, N.eqb_refl. auto. Qed.
Lemma kfind_put u l i x : kfind (key u) l = Some x -> kfind i (kput u l) = if N.eqb i (key u) then Some u else kfind i l.
Proof.
  intros Hx. assert (Hm : In (key u) (map key l)) by (apply kfind_some in Hx as [A <-]; now apply in_map).
  clear Hx x. induction l as [|y l IH]; [easy|]. unfold kfind, kput in *. cbn. destruct (N.eqb (key y) (key u)) eqn:E.
  - apply N.eqb_eq in E. destruct (N.eqb i (key u)) eqn:Ei.
    + apply N.eqb_eq in Ei. subst i. now rewrite N.eqb_refl.
    + rewrite N.eqb_sym, Ei. rewrite E, (N.eqb_sym (key u)), Ei.
      clear IH Hm. induction l as [|z l IH]; [reflexivity|]. cbn. destruct (N.eqb (key z) (key u)) eqn:Ez.
      * apply N.eqb_eq in Ez. now rewrite (N.eqb_sym (key u)), Ei, Ez, (N.eqb_sym (key u)), Ei.
      * destruct (N.eqb (key z) i); [reflexivity|exact IH].
  - destruct Hm as [Hm|Hm]; [apply N.eqb_neq in E; contradiction|]. destruct (N.eqb (key y) i) eqn:Eyi.
    + apply N.eqb_eq in Eyi. subst i. now rewrite E.
    + apply IH. exact Hm.
Qed.
Lemma kfind_app i l l' : kfind i (l ++ l') = match kfind i l with Some x => Some x | None => kfind i l' end.
Proof. induction l as [|x l IH]; [reflexivity|]. unfold kfind in *. cbn. destruct (N.eqb (key x) i); [reflexivity|exact IH]. Qed.

Definition cnt (f : T -> bool) (l : list T) : nat := length (filter f l).
Definition b2n (b : bool) : nat := if b then 1%nat else 0%nat.
Lemma cnt_app f l l' : cnt f (l ++ l') = (cnt f l + cnt f l')%nat.
Proof. unfold cnt. now rewrite filter_app, app_length. Qed.
Lemma cnt_cons f x l : cnt f (x :: l) = (b2n (f x) + cnt f l)%nat.
Proof. unfold cnt. cbn. destruct (f x); reflexivity. Qed.
Lemma cnt_put f u l x : NoDup (map key l) -> kfind (key u) l = Some x -> (cnt f (kput u l) + b2n (f x) = cnt f l + b2n (f u))%nat.
Proof.
  induction l as [|y l IH]; intros Hn Hx; [discriminate|]. inversion Hn as [|? ? Hy Hn']; subst. unfold kput. cbn [map]. rewrite !cnt_cons. fold (kput u l).
  unfold kfind in Hx. cbn in Hx. destruct (N.eqb (key y) (key u)) eqn:E.
  - injection Hx as ->. apply N.eqb_eq in E. replace (kput u l) with l; [lia|]. unfold kput. symmetry. rewrite <- (map_id l) at 2. apply map_ext_in.
    intros z Hz. destruct (N.eqb (key z) (key u)) eqn:Ez; [|reflexivity]. apply N.eqb_eq in Ez. exfalso. apply Hy. rewrite E, <- Ez. now apply in_map.
  - specialize (IH Hn' Hx). lia.
Qed.
Lemma cnt_le f g l : (forall x, In x l -> f x = true -> g x = true) -> (cnt f l <= cnt g l)%nat.
Proof.
  induction l as [|x l IH]; intros H; [cbn; lia|]. rewrite !cnt_cons. assert (cnt f l <= cnt g l)%nat by (apply IH; intros; apply H; auto; now right).
  specialize (H x (or_introl eq_refl)). destruct (f x); [rewrite H by reflexivity; cbn; lia|cbn; lia].
Qed.
Lemma cnt_pos f l x : In x l -> f x = true -> (0 < cnt f l)%nat.
Proof. intros Hin Hf. unfold cnt. assert (In x (filter f l)) by (apply filter_In; auto). destruct (filter f l); [easy|cbn; lia]. Qed.
Lemma cnt_zero f l : (forall x, In x l -> f x = false) -> cnt f l = 0%nat.
Proof. induction l as [|x l IH]; intros H; [reflexivity|]. rewrite cnt_cons, H by (now left). cbn. apply IH. intros; apply H; now right. Qed.
Lemma cnt_all f l : (forall x, In x l -> f x = true) -> cnt f l = length l.
Proof. induction l as [|x l IH]; intros H; [reflexivity|]. rewrite cnt_cons, H by (now left). cbn. f_equal. apply IH. intros; apply H; now right. Qed.
Lemma cnt_ext f g l : (forall x, In x l -> f x = g x) -> cnt f l = cnt g l.
Proof. induction l as [|x l IH]; intros H; [reflexivity|]. rewrite !cnt_cons, H by (now left). f_equal. apply IH. intros; apply H; now right. Qed.
(** as many [f] as [g], and [f] implies [g]: every [g] is an [f] *)
Lemma cnt_eq_all f g l : (forall x, In x l -> f x = true -> g x = true) -> cnt f l = cnt g l -> forall x, In x l -> g x = true -> f x = true.
Proof.
  induction l as [|y l IH]; intros H E x Hin Hg; [easy|]. rewrite !cnt_cons in E.
  assert (Hle : (cnt f l <= cnt g l)%nat) by (apply cnt_le; intros; apply H; auto; now right).
  assert (Hy := H y (or_introl eq_refl)). destruct Hin as [->|Hin].
  - destruct (f x); [reflexivity|]. rewrite Hg in E. cbn in E. lia.
  - apply IH; auto; [intros; apply H; auto; now right|]. destruct (f y), (g y); cbn in E; lia.
Qed.
Lemma cnt_lt_ex f g l : (cnt f l < cnt g l)%nat -> exists x, In x l /\ g x = true /\ f x = false.
Proof.
  induction l as [|y l IH]; intros H; [cbn in H; lia|]. rewrite !cnt_cons in H. destruct (g y) eqn:Eg, (f y) eqn:Ef; cbn in H;
  try (destruct IH as (x & A & B & C); [lia|]; exists x; split; [now right|auto]). exists y. split; [now left|auto].
Qed.
Lemma nodup_key_eq l x y : NoDup (map key l) -> In x l -> In y l -> key x = key y -> x = y.
Proof. intros Hn Hx Hy E. pose proof (kfind_in l x Hn Hx) as A. pose proof (kfind_in l y Hn Hy) as B. rewrite E in A. congruence. Qed.
End Keyed.

(** ** The abstract picture *)
(** the state of a task: CREATED; PENDING (with the size of its definition); handed to a worker or RUNNING on one; skipped and not yet completed; a detached
    sub-job task not yet completed; finished; a parallel task with [n] children of which [c] finished; an each task of [n] elements, [c] finished, [k] at a time
    and [ix] released; an attached sub-job task waiting for job [s]; anything else *)
Inductive ast := ACr (h : nat) | APe (h : nat) | AWo | ASk | ADe | AFi | APar (n c : Z) | AEa (n c k ix : Z) | ASu (s : N) | ABad.
Record arow := mkRow { r_id : N; r_job : N; r_par : N; r_pos : Z; r_st : ast }.
Definition setst (r : arow) (s : ast) : arow := mkRow (r_id r) (r_job r) (r_par r) (r_pos r) s.
(** a job: PENDING, live, COMPLETED or something else; the sizes of its tasks and its position *)
Inductive ajst := QPe | QLi | QCo | QBad.
Record ajob := mkAJob { q_id : N; q_par : N; q_hs : list nat; q_pos : Z; q_st : ajst }.
Definition setq (q : ajob) (p : Z) (s : ajst) : ajob := mkAJob (q_id q) (q_par q) (q_hs q) p s.
(** a message in flight: a PENDING task, a task for a worker, a completed task, a PENDING job, another one of level [l] *)
Inductive atok := KP (i : N) (h : nat) | KW (i : N) | KC (i : N) | KJ (i : N) (hs : list nat) | KO (l : nat).
Record abs := mkAbs { a_rows : list arow; a_jobs : list ajob; a_toks : list atok; a_fresh : N }.

Notation rfind := (kfind r_id). Notation rput := (kput r_id).
Notation qfind := (kfind q_id). Notation qput := (kput q_id).

Definition ttok (k : atok) : list N := match k with KP i _ | KW i | KC i => [i] | _ => [] end.
Definition jtok (k : atok) : list N := match k with KJ i _ => [i] | _ => [] end.
Definition isfin (s : ast) : bool := match s with AFi => true | _ => false end.
Definition iscr (s : ast) : bool := match s with ACr _ => true | _ => false end.
Definition kid (i : N) (r : arow) : bool := N.eqb (r_par r) i.
Definition kids (i : N) (l : list arow) : Z := Z.of_nat (cnt (kid i) l).
Definition finkids (i : N) (l : list arow) : Z := Z.of_nat (cnt (fun r => kid i r && isfin (r_st r))%bool l).
Definition crkids (i : N) (l : list arow) : Z := Z.of_nat (cnt (fun r => kid i r && iscr (r_st r))%bool l).
Definition sumn (l : list nat) : nat := fold_right Nat.add 0%nat l.

(** its completion may be processed *)
Definition ready (jobs : list ajob) (s : ast) : Prop :=
  match s with
  | AWo | ASk | ADe => True
  | APar n c | AEa n c _ _ => n <= c
  | ASu s => exists q, qfind s jobs = Some q /\ q_st q = QCo
  | _ => False
  end.
(** it makes progress: a message about it is in flight or it waits for something *)
Definition lively (jobs : list ajob) (toks : list atok) (r : arow) : Prop :=
  match r_st r with
  | APe h => In (KP (r_id r) h) toks
  | AWo => In (KW (r_id r)) toks \/ In (KC (r_id r)) toks
  | ASk | ADe => In (KC (r_id r)) toks
  | APar n c | AEa n c _ _ => c < n \/ In (KC (r_id r)) toks
  | ASu s => exists q, qfind s jobs = Some q /\ (r_id r < s)%N /\ q_par q = r_id r /\ (q_st q <> QCo \/ In (KC (r_id r)) toks)
  | ACr _ | AFi => True
  | ABad => False
  end.
Definition counted (rows : list arow) (r : arow) : Prop :=
  match r_st r with
  | APar n c => 0 < n /\ kids (r_id r) rows = n /\ finkids (r_id r) rows = c /\ crkids (r_id r) rows = 0
  | AEa n c k ix => 0 < n /\ 0 <= k /\ ix = k + c /\ kids (r_id r) rows = n /\ finkids (r_id r) rows = c /\
      crkids (r_id r) rows = (if k =? 0 then 0 else Z.max 0 (n - ix))
  | _ => True
  end.
Definition isfan (s : ast) : bool := match s with APar _ _ | AEa _ _ _ _ => true | _ => false end.

Record AI (a : abs) : Prop := {
  ai_rn : NoDup (map r_id (a_rows a));
  ai_qn : NoDup (map q_id (a_jobs a));
  ai_rf : forall r, In r (a_rows a) -> (0 < r_id r < a_fresh a)%N;
  ai_qf : forall q, In q (a_jobs a) -> (0 < q_id q < a_fresh a)%N;
  ai_tn : NoDup (flat_map ttok (a_toks a));
  ai_jn : NoDup (flat_map jtok (a_toks a));
  ai_kp : forall i h, In (KP i h) (a_toks a) -> exists r, rfind i (a_rows a) = Some r /\ r_st r = APe h;
  ai_kw : forall i, In (KW i) (a_toks a) -> exists r, rfind i (a_rows a) = Some r /\ r_st r = AWo;
  ai_kc : forall i, In (KC i) (a_toks a) -> exists r, rfind i (a_rows a) = Some r /\ ready (a_jobs a) (r_st r);
  ai_kj : forall i hs, In (KJ i hs) (a_toks a) -> exists q, qfind i (a_jobs a) = Some q /\ q_st q = QPe /\ q_hs q = hs;
  ai_par : forall r, In r (a_rows a) -> r_par r <> 0%N -> exists p, rfind (r_par r) (a_rows a) = Some p /\ r_job p = r_job r /\ (r_par r < r_id r)%N /\
    (isfan (r_st p) = true \/ (r_st p = AFi /\ r_st r = AFi));
  ai_top : forall r, In r (a_rows a) -> r_par r = 0%N -> iscr (r_st r) = false /\ (r_st r <> AFi ->
    exists q, qfind (r_job r) (a_jobs a) = Some q /\ q_st q = QLi /\ r_pos r = q_pos q /\ 1 <= q_pos q <= Z.of_nat (length (q_hs q)));
  ai_uniq : forall r r', In r (a_rows a) -> In r' (a_rows a) -> r_par r = 0%N -> r_par r' = 0%N -> r_job r = r_job r' ->
    r_st r <> AFi -> r_st r' <> AFi -> r = r';
  ai_live : forall r, In r (a_rows a) -> lively (a_jobs a) (a_toks a) r;
  ai_cnt : forall r, In r (a_rows a) -> counted (a_rows a) r;
  ai_own : forall r, In r (a_rows a) -> exists q, qfind (r_job r) (a_jobs a) = Some q /\ q_st q <> QPe /\ (r_job r < r_id r)%N;
  ai_job : forall q, In q (a_jobs a) -> match q_st q with
    | QPe => In (KJ (q_id q) (q_hs q)) (a_toks a) /\ q_hs q <> []
    | QLi => exists r, In r (a_rows a) /\ r_job r = q_id q /\ r_par r = 0%N /\ r_st r <> AFi
    | QCo => True
    | QBad => False end;
  ai_jpar : forall q, In q (a_jobs a) -> q_par q <> 0%N -> q_st q <> QCo ->
    exists p, rfind (q_par q) (a_rows a) = Some p /\ r_st p = ASu (q_id q) }.

Definition kidtoks (l : list arow) : list atok := flat_map (fun r => match r_st r with APe h => [KP (r_id r) h] | _ => [] end) l.
Fixpoint nseq (i : N) (n : nat) : list N := match n with O => [] | S n => i :: nseq (N.succ i) n end.

Inductive astep : abs -> abs -> Prop :=
| s_other rows jobs T f l new : Forall (fun k => exists l', k = KO l' /\ (l' < l)%nat) new ->
    astep (mkAbs rows jobs (KO l :: T) f) (mkAbs rows jobs (new ++ T) f)
| s_worker rows jobs T f i new : Forall (fun k => exists l', k = KO l' /\ (l' <= 3)%nat) new ->
    astep (mkAbs rows jobs (KW i :: T) f) (mkAbs rows jobs ((new ++ [KC i]) ++ T) f)
| s_simple rows jobs T f i h r s k : rfind i rows = Some r -> (5 <= h)%nat -> (s = AWo /\ k = KW i) \/ (s = ASk /\ k = KC i) ->
    astep (mkAbs rows jobs (KP i h :: T) f) (mkAbs (rput (setst r s) rows) jobs ([k] ++ T) f)
| s_fan rows jobs T f i h r s ks : rfind i rows = Some r -> ks <> [] ->
    Forall (fun x => r_job x = r_job r /\ r_par x = i /\ exists h', (h' + 3 <= h)%nat /\ (r_st x = APe h' \/ r_st x = ACr h')) ks ->
    map r_id ks = nseq f (length ks) ->
    (s = APar (Z.of_nat (length ks)) 0 /\ Forall (fun x => iscr (r_st x) = false) ks \/
     exists k, 0 <= k /\ s = AEa (Z.of_nat (length ks)) 0 k k /\
       Z.of_nat (cnt (fun x => iscr (r_st x)) ks) = if k =? 0 then 0 else Z.max 0 (Z.of_nat (length ks) - k)) ->
    astep (mkAbs rows jobs (KP i h :: T) f) (mkAbs (rput (setst r s) rows ++ ks) jobs (kidtoks ks ++ T) (f + N.of_nat (length ks))%N)
| s_sub rows jobs T f i h r s q k : rfind i rows = Some r -> q_id q = f -> q_st q = QPe -> q_hs q <> [] -> (5 + sumn (q_hs q) <= h)%nat ->
    (s = ASu f /\ q_par q = i /\ k = []) \/ (s = ADe /\ q_par q = 0%N /\ k = [KC i]) ->
    astep (mkAbs rows jobs (KP i h :: T) f) (mkAbs (rput (setst r s) rows) (jobs ++ [q]) ((KJ f (q_hs q) :: k) ++ T) (N.succ f))
| s_kid rows jobs T f i r p n c : rfind i rows = Some r -> r_par r <> 0%N -> rfind (r_par r) rows = Some p -> r_st p = APar n c ->
    astep (mkAbs rows jobs (KC i :: T) f)
          (mkAbs (rput (setst p (APar n (c + 1))) (rput (setst r AFi) rows)) jobs ((if n <=? c + 1 then [KC (r_par r)] else []) ++ T) f)
| s_item rows jobs T f i r p n c k ix : rfind i rows = Some r -> r_par r <> 0%N -> rfind (r_par r) rows = Some p -> r_st p = AEa n c k ix ->
    (negb (n <=? c + 1) && (0 <? k) && (ix <? n))%bool = false ->
    astep (mkAbs rows jobs (KC i :: T) f)
          (mkAbs (rput (setst p (AEa n (c + 1) k (ix + 1))) (rput (setst r AFi) rows)) jobs ((if n <=? c + 1 then [KC (r_par r)] else []) ++ T) f)
| s_release rows jobs T f i r p n c k ix x h : rfind i rows = Some r -> r_par r <> 0%N -> rfind (r_par r) rows = Some p -> r_st p = AEa n c k ix ->
    (negb (n <=? c + 1) && (0 <? k) && (ix <? n))%bool = true -> In x rows -> r_par x = r_par r -> r_st x = ACr h ->
    astep (mkAbs rows jobs (KC i :: T) f)
          (mkAbs (rput (setst p (AEa n (c + 1) k (ix + 1))) (rput (setst x (APe h)) (rput (setst r AFi) rows))) jobs ([KP (r_id x) h] ++ T) f)
| s_next rows jobs T f i r q h : rfind i rows = Some r -> r_par r = 0%N -> qfind (r_job r) jobs = Some q -> nth_error (q_hs q) (Z.to_nat (q_pos q)) = Some h ->
    astep (mkAbs rows jobs (KC i :: T) f)
          (mkAbs (rput (setst r AFi) rows ++ [mkRow f (r_job r) 0%N (q_pos q + 1) (APe h)]) (qput (setq q (q_pos q + 1) (q_st q)) jobs) ([KP f h] ++ T) (N.succ f))
| s_end rows jobs T f i r q : rfind i rows = Some r -> r_par r = 0%N -> qfind (r_job r) jobs = Some q -> Z.of_nat (length (q_hs q)) < q_pos q + 1 ->
    astep (mkAbs rows jobs (KC i :: T) f)
          (mkAbs (rput (setst r AFi) rows) (qput (setq q (q_pos q + 1) QCo) jobs) ([if N.eqb (q_par q) 0 then KO 0 else KC (q_par q)] ++ T) f)
| s_start rows jobs T f i h hs q : qfind i jobs = Some q -> q_hs q = h :: hs ->
    astep (mkAbs rows jobs (KJ i (h :: hs) :: T) f)
          (mkAbs (rows ++ [mkRow f i 0%N 1 (APe h)]) (qput (setq q 1 QLi) jobs) ([KP f h] ++ T) (N.succ f)).

(** ** Preservation *)
Arguments kfind : simpl never. Arguments kput : simpl never. Arguments cnt : simpl never.
Ltac ainv := match goal with |- AI _ -> _ => intros [rn qn rf qf tn jn kp kw kc kj par top uniq live cn own job jpar] end;
  cbn [a_rows a_jobs a_toks a_fresh] in *.
Ltac agoal := split; cbn [a_rows a_jobs a_toks a_fresh].
Section Frame.
Variables (rows : list arow) (r : arow) (s : ast).
Hypothesis Hn : NoDup (map r_id rows).
Hypothesis Hr : rfind (r_id r) rows = Some r.
Lemma put_find i : rfind i (rput (setst r s) rows) = if N.eqb i (r_id r) then Some (setst r s) else rfind i rows.
Proof. apply (kfind_put r_id (setst r s) rows i r). exact Hr. Qed.
Lemma put_cases x : In x (rput (setst r s) rows) -> x = setst r s \/ (In x rows /\ r_id x <> r_id r).
Proof. intros H. apply kput_in in H as [[H _]|H]; auto. Qed.
Lemma put_self : In (setst r s) (rput (setst r s) rows).
Proof. apply kput_mem. cbn. apply kfind_some in Hr as [H _]. now apply in_map. Qed.
Lemma put_keep x : In x rows -> r_id x <> r_id r -> In x (rput (setst r s) rows).
Proof. intros. now apply kput_other. Qed.
Lemma put_keys : map r_id (rput (setst r s) rows) = map r_id rows.
Proof. apply kput_keys. Qed.
Lemma put_nodup : NoDup (map r_id (rput (setst r s) rows)).
Proof. rewrite put_keys. exact Hn. Qed.
Lemma put_kids i : kids i (rput (setst r s) rows) = kids i rows.
Proof. unfold kids. pose proof (cnt_put r_id (kid i) (setst r s) rows r Hn Hr) as H. unfold kid in H at 2 4. cbn [setst r_par] in H. unfold kid in *. lia. Qed.
Lemma put_fin i : finkids i (rput (setst r s) rows) = finkids i rows - (if kid i r && isfin (r_st r) then 1 else 0) + (if kid i r && isfin s then 1 else 0).
Proof.
  unfold finkids. pose proof (cnt_put r_id (fun r => kid i r && isfin (r_st r))%bool (setst r s) rows r Hn Hr) as H. cbn beta in H.
  unfold kid in *. cbn [setst r_par r_st] in H. unfold b2n in H. destruct (N.eqb (r_par r) i && isfin (r_st r))%bool, (N.eqb (r_par r) i && isfin s)%bool; lia.
Qed.
Lemma put_cr i : crkids i (rput (setst r s) rows) = crkids i rows - (if kid i r && iscr (r_st r) then 1 else 0) + (if kid i r && iscr s then 1 else 0).
Proof.
  unfold crkids. pose proof (cnt_put r_id (fun r => kid i r && iscr (r_st r))%bool (setst r s) rows r Hn Hr) as H. cbn beta in H.
  unfold kid in *. cbn [setst r_par r_st] in H. unfold b2n in H. destruct (N.eqb (r_par r) i && iscr (r_st r))%bool, (N.eqb (r_par r) i && iscr s)%bool; lia.
Qed.
End Frame.

Lemma lively_frame jobs jobs' toks toks' x : lively jobs toks x ->
  (forall k, In k toks -> In (r_id x) (ttok k) -> In k toks') ->
  (forall s q, r_st x = ASu s -> qfind s jobs = Some q -> exists q', qfind s jobs' = Some q' /\ q_par q' = q_par q /\ (q_par q = r_id x -> q_st q <> QCo -> q_st q' <> QCo \/ In (KC (r_id x)) toks')) ->
  lively jobs' toks' x.
Proof.
  unfold lively. intros H Ht Hq. destruct (r_st x) as [h|h| | | | |n c|n c k ix|s|]; auto.
  - apply Ht; [exact H|now left].
  - destruct H as [H|H]; [left|right]; (apply Ht; [exact H|now left]).
  - apply Ht; [exact H|now left].
  - apply Ht; [exact H|now left].
  - destruct H as [H|H]; [now left|right]. apply Ht; [exact H|now left].
  - destruct H as [H|H]; [now left|right]. apply Ht; [exact H|now left].
  - destruct H as (q & A & B & D & C). destruct (Hq s q eq_refl A) as (q' & A' & D' & C'). exists q'. split; [exact A'|]. split; [exact B|]. split; [congruence|].
    destruct C as [C|C]; [exact (C' D C)|right]. apply Ht; [exact C|now left].
Qed.
Lemma counted_frame rows rows' x : counted rows x -> kids (r_id x) rows' = kids (r_id x) rows -> finkids (r_id x) rows' = finkids (r_id x) rows ->
  crkids (r_id x) rows' = crkids (r_id x) rows -> counted rows' x.
Proof. unfold counted. intros H A B C. rewrite A, B, C. exact H. Qed.
Lemma fan_counted rows x : counted rows x -> isfan (r_st x) = true -> exists n c, 0 < n /\ kids (r_id x) rows = n /\ finkids (r_id x) rows = c.
Proof. unfold counted. destruct (r_st x) as [| | | | | |n c|n c k ix| |]; intros H F; try discriminate; exists n, c; intuition. Qed.

(** the consumed message is about task [i]: the others are not *)
Lemma other_toks k T i : NoDup (flat_map ttok (k :: T)) -> In i (ttok k) -> forall x, In x T -> ~ In i (ttok x).
Proof.
  cbn. intros Hn Hi x Hx Hx'. apply in_split in Hi as (a & b & E). rewrite E, <- app_assoc in Hn. cbn in Hn.
  apply NoDup_remove_2 in Hn. apply Hn. apply in_or_app. right. apply in_or_app. right. apply in_flat_map. eauto.
Qed.
Lemma tail_toks k T : NoDup (flat_map ttok (k :: T)) -> NoDup (flat_map ttok T).
Proof. cbn. induction (ttok k) as [|x l IH]; cbn; [easy|]. intros H. inversion H; auto. Qed.
Lemma tail_jtoks k T : NoDup (flat_map jtok (k :: T)) -> NoDup (flat_map jtok T).
Proof. cbn. induction (jtok k) as [|x l IH]; cbn; [easy|]. intros H. inversion H; auto. Qed.
Lemma KO_ttok new (P : nat -> Prop) : Forall (fun k => exists l', k = KO l' /\ P l') new -> flat_map ttok new = [] /\ flat_map jtok new = [].
Proof. induction 1 as [|k new (l' & -> & _) H (IH1 & IH2)]; auto. Qed.
Lemma KO_in new (P : nat -> Prop) k : Forall (fun k => exists l', k = KO l' /\ P l') new -> In k new -> exists l, k = KO l.
Proof. rewrite Forall_forall. intros H Hin. destruct (H k Hin) as (l & -> & _). eauto. Qed.

Lemma AI_perm rows jobs T T' f : Permutation T T' -> AI (mkAbs rows jobs T f) -> AI (mkAbs rows jobs T' f).
Proof.
  intros P. ainv. assert (PI : forall k, In k T <-> In k T') by (intros; split; apply Permutation_in; [exact P|now symmetry]).
  agoal; auto.
  - eapply Permutation_NoDup; [apply Permutation_flat_map; exact P|exact tn].
  - eapply Permutation_NoDup; [apply Permutation_flat_map; exact P|exact jn].
  - intros i h. rewrite <- PI. auto.
  - intros i. rewrite <- PI. auto.
  - intros i. rewrite <- PI. auto.
  - intros i h. rewrite <- PI. auto.
  - intros r Hr. eapply lively_frame; [apply live; exact Hr|intros; now apply PI|]. intros s q _ E. exists q. split; [exact E|]. split; [reflexivity|]. intros; now left.
  - intros q Hq. specialize (job q Hq). destruct (q_st q); auto. rewrite <- PI. exact job.
Qed.

Lemma pres_other rows jobs T f l new : Forall (fun k => exists l', k = KO l' /\ (l' < l)%nat) new ->
  AI (mkAbs rows jobs (KO l :: T) f) -> AI (mkAbs rows jobs (new ++ T) f).
Proof.
  intros F. ainv. destruct (KO_ttok _ _ F) as [E1 E2].
  assert (NI : forall k, In k (new ++ T) -> (exists l, k = KO l) \/ In k T) by (intros k Hk; apply in_app_iff in Hk as [Hk|Hk]; [left; exact (KO_in new _ k F Hk)|now right]).
  assert (IN : forall k, In k T -> In k (KO l :: T)) by (intros; now right).
  agoal; auto.
  - rewrite flat_map_app, E1. exact tn.
  - rewrite flat_map_app, E2. exact jn.
  - intros i h Hk. destruct (NI _ Hk) as [[? E]|Hk']; [discriminate|auto].
  - intros i Hk. destruct (NI _ Hk) as [[? E]|Hk']; [discriminate|auto].
  - intros i Hk. destruct (NI _ Hk) as [[? E]|Hk']; [discriminate|auto].
  - intros i h Hk. destruct (NI _ Hk) as [[? E]|Hk']; [discriminate|auto].
  - intros r Hr. eapply lively_frame; [apply live; exact Hr| |].
    + intros k [<-|Hk] Hi; [destruct Hi|]. apply in_or_app. now right.
    + intros s q _ E. exists q. split; [exact E|]. split; [reflexivity|]. intros; now left.
  - intros q Hq. specialize (job q Hq). destruct (q_st q); auto. destruct job as [[E|job] B]; [discriminate|]. split; [|exact B]. apply in_or_app. now right.
Qed.

Lemma pres_worker rows jobs T f i new : Forall (fun k => exists l', k = KO l' /\ (l' <= 3)%nat) new ->
  AI (mkAbs rows jobs (KW i :: T) f) -> AI (mkAbs rows jobs ((new ++ [KC i]) ++ T) f).
Proof.
  intros F. ainv. destruct (KO_ttok _ _ F) as [E1 E2].
  assert (NI : forall k, In k ((new ++ [KC i]) ++ T) -> (exists l, k = KO l) \/ k = KC i \/ In k T).
  { intros k Hk. apply in_app_iff in Hk as [Hk|Hk]; [|now right; right]. apply in_app_iff in Hk as [Hk|[<-|[]]]; [left; exact (KO_in new _ k F Hk)|now right; left]. }
  assert (IN : forall k, In k T -> In k (KW i :: T)) by (intros; now right).
  assert (NT := other_toks (KW i) T i tn (or_introl eq_refl)).
  agoal; auto.
  - rewrite !flat_map_app, E1. exact tn.
  - rewrite !flat_map_app, E2. exact jn.
  - intros x h Hk. destruct (NI _ Hk) as [[? E]|[E|Hk']]; [discriminate|discriminate|auto].
  - intros x Hk. destruct (NI _ Hk) as [[? E]|[E|Hk']]; [discriminate|discriminate|auto].
  - intros x Hk. destruct (NI _ Hk) as [[? E]|[E|Hk']]; [discriminate| |auto]. injection E as ->.
    destruct (kw i (or_introl eq_refl)) as (r & A & B). exists r. split; [exact A|]. rewrite B. exact I.
  - intros x h Hk. destruct (NI _ Hk) as [[? E]|[E|Hk']]; [discriminate|discriminate|auto].
  - intros r Hr. destruct (N.eq_dec (r_id r) i) as [<-|Hi].
    + destruct (kw (r_id r) (or_introl eq_refl)) as (r' & A & B). rewrite (kfind_in r_id rows r rn Hr) in A. injection A as <-.
      unfold lively. rewrite B. right. apply in_or_app. left. apply in_or_app. right. now left.
    + eapply lively_frame; [apply live; exact Hr| |].
      * intros k [<-|Hk] Hi'; [destruct Hi' as [E|[]]; congruence|]. apply in_or_app. now right.
      * intros s q _ E. exists q. split; [exact E|]. split; [reflexivity|]. intros; now left.
  - intros q Hq. specialize (job q Hq). destruct (q_st q); auto. destruct job as [[E|job] B]; [discriminate|]. split; [|exact B]. apply in_or_app. now right.
Qed.

(** a PENDING task becomes something that is neither finished nor created and has no children yet *)
Section Pending.
Variables (rows : list arow) (jobs : list ajob) (T : list atok) (f : N) (i : N) (h : nat) (r : arow) (s : ast).
Hypothesis HA : AI (mkAbs rows jobs (KP i h :: T) f).
Hypothesis Hr : rfind i rows = Some r.
Hypothesis Hs : isfin s = false /\ iscr s = false.
Lemma pend_id : r_id r = i. Proof. exact (proj2 (kfind_some r_id i rows r Hr)). Qed.
Lemma pend_in : In r rows. Proof. exact (proj1 (kfind_some r_id i rows r Hr)). Qed.
Lemma pend_rfind : rfind (r_id r) rows = Some r. Proof. rewrite pend_id. exact Hr. Qed.
Lemma pend_st : r_st r = APe h.
Proof. destruct (ai_kp _ HA i h (or_introl eq_refl)) as (x & A & B). cbn in A. rewrite Hr in A. injection A as ->. exact B. Qed.
Lemma pend_nokids x : In x rows -> r_par x <> i.
Proof.
  intros Hx E. assert (Hp : r_par x <> 0%N). { rewrite E. pose proof (ai_rf _ HA r pend_in). rewrite pend_id in H. lia. }
  destruct (ai_par _ HA x Hx Hp) as (p & A & _ & _ & B). cbn in A. rewrite E, Hr in A. injection A as <-. rewrite pend_st in B. destruct B as [B|[B _]]; discriminate.
Qed.
Lemma pend_zero : kids i rows = 0.
Proof. unfold kids. rewrite cnt_zero; [reflexivity|]. intros x Hx. apply N.eqb_neq. apply pend_nokids. exact Hx. Qed.
Notation rows' := (rput (setst r s) rows).
Lemma pend_fin x : finkids x rows' = finkids x rows.
Proof. rewrite (put_fin rows r s (ai_rn _ HA) pend_rfind). rewrite pend_st, (proj1 Hs). cbn. rewrite !andb_false_r. lia. Qed.
Lemma pend_cr x : crkids x rows' = crkids x rows.
Proof. rewrite (put_cr rows r s (ai_rn _ HA) pend_rfind). rewrite pend_st, (proj2 Hs). cbn. rewrite !andb_false_r. lia. Qed.
Lemma pend_kids x : kids x rows' = kids x rows.
Proof. apply put_kids; [exact (ai_rn _ HA)|exact pend_rfind]. Qed.
Lemma pend_notfin : r_st r <> AFi. Proof. rewrite pend_st. discriminate. Qed.
Lemma pend_sfin : s <> AFi. Proof. intros ->. destruct Hs. discriminate. Qed.

(** what does not depend on the messages and on new rows *)
Lemma pend_par x : In x rows' -> r_par x <> 0%N -> exists p, rfind (r_par x) rows' = Some p /\ r_job p = r_job x /\ (r_par x < r_id x)%N /\
    (isfan (r_st p) = true \/ (r_st p = AFi /\ r_st x = AFi)).
Proof.
  intros Hx Hp. rewrite (put_find rows r s pend_rfind).
  assert (HX : exists x0, In x0 rows /\ r_par x0 = r_par x /\ r_job x0 = r_job x /\ r_id x0 = r_id x /\ (r_st x0 = AFi -> r_st x = AFi)).
  { apply put_cases in Hx as [->|[Hx Hi]]; [exists r; cbn; repeat split; auto using pend_in; intros E; contradiction (pend_notfin E)|exists x; auto]. }
  destruct HX as (x0 & X1 & X2 & X3 & X4 & X5). rewrite <- X2 in Hp.
  destruct (ai_par _ HA x0 X1 Hp) as (p & A & B & C & D). cbn [a_rows] in *. rewrite X2, X3, X4 in *.
  destruct (N.eqb (r_par x) (r_id r)) eqn:E.
  - apply N.eqb_eq in E. exfalso. apply (pend_nokids x0 X1). rewrite X2, E. apply pend_id.
  - exists p. split; [exact A|]. split; [exact B|]. split; [exact C|tauto].
Qed.
Lemma pend_uniq x x' : In x rows' -> In x' rows' -> r_par x = 0%N -> r_par x' = 0%N -> r_job x = r_job x' -> r_st x <> AFi -> r_st x' <> AFi -> x = x'.
Proof.
  intros Hx Hx' P P' J F F'. apply put_cases in Hx as [->|[Hx Hi]]; apply put_cases in Hx' as [->|[Hx' Hi']]; auto.
  - cbn in *. exfalso. apply Hi'. symmetry. f_equal. exact (ai_uniq _ HA r x' pend_in Hx' P P' J pend_notfin F').
  - cbn in *. exfalso. apply Hi. f_equal. exact (ai_uniq _ HA x r Hx pend_in P P' J F pend_notfin).
  - exact (ai_uniq _ HA x x' Hx Hx' P P' J F F').
Qed.
Lemma pend_ids x : In x rows' -> exists x0, In x0 rows /\ r_id x0 = r_id x /\ r_job x0 = r_job x /\ r_par x0 = r_par x /\ r_pos x0 = r_pos x /\ (r_st x <> AFi -> r_st x0 <> AFi).
Proof. intros Hx. apply put_cases in Hx as [->|[Hx Hi]]; [exists r; cbn; repeat split; auto using pend_in, pend_notfin|exists x; auto 10]. Qed.
Lemma pend_scr x : In x rows' -> r_par x = 0%N -> iscr (r_st x) = false.
Proof.
  intros Hx P. apply put_cases in Hx as [->|[Hx Hi]]; [exact (proj2 Hs)|]. exact (proj1 (ai_top _ HA x Hx P)).
Qed.
Lemma pend_keep x st : rfind x rows = Some st -> x <> i -> rfind x rows' = Some st.
Proof. intros A B. rewrite (put_find rows r s pend_rfind). rewrite pend_id. apply N.eqb_neq in B. rewrite B. exact A. Qed.
End Pending.

Ltac intail := apply in_or_app; right.
Ltac pendfacts := match goal with HA : AI (mkAbs ?rows ?jobs (KP ?i ?h :: ?T) ?f), Hr : rfind ?i ?rows = Some ?r, Hs : isfin ?s = false /\ _, Hrf : rfind (r_id ?r) ?rows = _ |- _ =>
  pose proof (pend_par rows jobs T f i h r s HA Hr Hs) as par'; pose proof (pend_uniq rows jobs T f i h r s HA Hr) as uniq';
  pose proof (pend_ids rows jobs T f i h r s HA Hr) as ids'; pose proof (pend_scr rows jobs T f i h r s HA Hs) as scr';
  pose proof (pend_fin rows jobs T f i h r s HA Hr Hs) as fin'; pose proof (pend_cr rows jobs T f i h r s HA Hr Hs) as cr'; pose proof (pend_kids rows jobs T f i h r s HA Hr) as kids';
  pose proof (pend_keep rows i r s Hr) as keep'; pose proof (pend_notfin rows jobs T f i h r HA Hr) as nf; pose proof (pend_sfin s Hs) as sf;
  pose proof (put_find rows r s Hrf) as pf; pose proof (pend_nokids rows jobs T f i h r HA Hr) as nk end.
Lemma pres_simple rows jobs T f i h r s k : rfind i rows = Some r -> (s = AWo /\ k = KW i) \/ (s = ASk /\ k = KC i) ->
  AI (mkAbs rows jobs (KP i h :: T) f) -> AI (mkAbs (rput (setst r s) rows) jobs ([k] ++ T) f).
Proof.
  intros Hr Hk HA. assert (Hs : isfin s = false /\ iscr s = false) by (destruct Hk as [[-> _]|[-> _]]; auto).
  assert (Hid := pend_id rows i r Hr). assert (Hst := pend_st rows jobs T f i h r HA Hr). assert (Hin := pend_in rows i r Hr).
  assert (Hrf := pend_rfind rows i r Hr).
  assert (NT := other_toks (KP i h) T i (ai_tn _ HA) (or_introl eq_refl)).
  pendfacts.
  revert HA. ainv. assert (IN : forall x, In x T -> In x (KP i h :: T)) by (intros; now right).
  assert (TK : ttok k = [i] /\ jtok k = []) by (destruct Hk as [[_ ->]|[_ ->]]; auto). destruct TK as [TK1 TK2].
  agoal; auto.
  - now rewrite put_keys.
  - intros x Hx. destruct (ids' x Hx) as (x0 & A & <- & _). auto.
  - cbn. rewrite TK1. exact tn.
  - cbn. rewrite TK2. exact jn.
  - intros x h' Hx. cbn in Hx. destruct Hx as [E|Hx]; [destruct Hk as [[_ ->]|[_ ->]]; discriminate|]. destruct (kp x h' (IN _ Hx)) as (y & A & B).
    exists y. split; [|exact B]. apply keep'; [exact A|]. intros ->. apply (NT _ Hx). now left.
  - intros x Hx. cbn in Hx. destruct Hx as [E|Hx].
    + destruct Hk as [[-> ->]|[_ ->]]; [|discriminate]. injection E as <-. exists (setst r AWo). split; [|reflexivity]. rewrite pf, Hid, N.eqb_refl. reflexivity.
    + destruct (kw x (IN _ Hx)) as (y & A & B). exists y. split; [|exact B]. apply keep'; [exact A|]. intros ->. apply (NT _ Hx). now left.
  - intros x Hx. cbn in Hx. destruct Hx as [E|Hx].
    + destruct Hk as [[-> ->]|[-> ->]]; [discriminate|]. injection E as <-. exists (setst r ASk). split; [|exact I]. rewrite pf, Hid, N.eqb_refl. reflexivity.
    + destruct (kc x (IN _ Hx)) as (y & A & B). exists y. split; [|exact B]. apply keep'; [exact A|]. intros ->. apply (NT _ Hx). now left.
  - intros x hs Hx. cbn in Hx. destruct Hx as [E|Hx]; [destruct Hk as [[_ ->]|[_ ->]]; discriminate|]. exact (kj x hs (IN _ Hx)).
  - intros x Hx Hp. split; [apply scr'; assumption|]. intros Hf. destruct (ids' x Hx) as (x0 & A & _ & B & C & D & E). rewrite <- B, <- D. rewrite <- C in Hp. exact (proj2 (top x0 A Hp) (E Hf)).
  - intros x Hx. apply put_cases in Hx as [->|[Hx Hi]].
    + unfold lively. cbn. rewrite Hid. destruct Hk as [[-> ->]|[-> ->]]; cbn; auto.
    + eapply lively_frame; [apply live; exact Hx| |].
      * intros y [<-|Hy] Hy'; [destruct Hy' as [E|[]]; congruence|]. now right.
      * intros s' q _ E. exists q. split; [exact E|]. split; [reflexivity|]. intros; now left.
  - intros x Hx. apply put_cases in Hx as [->|[Hx Hi]].
    + destruct Hk as [[-> ->]|[-> ->]]; exact I.
    + apply (counted_frame rows); auto.
  - intros x Hx. destruct (ids' x Hx) as (x0 & A & B & C & _). rewrite <- B, <- C. auto.
  - intros q Hq. specialize (job q Hq). destruct (q_st q); auto.
    + destruct job as [[E|job] B]; [discriminate|]. split; [now right|exact B].
    + destruct job as (x & A & B & C & D). destruct (N.eq_dec (r_id x) (r_id r)) as [E|E].
      * exists (setst r s). split; [apply put_self; exact Hrf|]. assert (x = r) by (apply (nodup_key_eq r_id rows); auto). subst x. cbn. auto.
      * exists x. split; [now apply put_keep|auto].
  - intros q Hq Hp Hc. destruct (jpar q Hq Hp Hc) as (p & A & B). exists p. split; [|exact B]. apply keep'; [exact A|]. intros E. rewrite E, Hr in A. injection A as <-. congruence.
Qed.

Lemma kidtoks_in ks k : In k (kidtoks ks) -> exists x h, In x ks /\ r_st x = APe h /\ k = KP (r_id x) h.
Proof. intros H. apply in_flat_map in H as (x & A & B). destruct (r_st x) as [| h | | | | | | | |] eqn:E; try destruct B. exists x, h. intuition. contradiction. Qed.
Lemma in_kidtoks ks x h : In x ks -> r_st x = APe h -> In (KP (r_id x) h) (kidtoks ks).
Proof. intros A B. apply in_flat_map. exists x. split; [exact A|]. rewrite B. now left. Qed.
Lemma kidtoks_ttok ks : incl (flat_map ttok (kidtoks ks)) (map r_id ks) /\ flat_map jtok (kidtoks ks) = [] /\ (NoDup (map r_id ks) -> NoDup (flat_map ttok (kidtoks ks))).
Proof.
  induction ks as [|x ks (I1 & I2 & I3)]; cbn; [split; [apply incl_nil_l|split; [reflexivity|constructor]]|].
  unfold kidtoks in *. cbn. rewrite !flat_map_app. destruct (r_st x); cbn; (split; [try (apply incl_cons; [now left|]); apply incl_tl; exact I1|split; [exact I2|]]); intros Hn; inversion Hn; subst; auto.
  constructor; auto.
Qed.
Lemma nseq_in n : forall f i, In i (nseq f n) -> (f <= i < f + N.of_nat n)%N.
Proof. induction n as [|n IH]; intros f i; [easy|]. cbn [nseq]. intros [<-|H]; [lia|]. apply IH in H. lia. Qed.
Lemma nseq_nodup n : forall f, NoDup (nseq f n).
Proof. induction n as [|n IH]; intros f; constructor; auto. intros H. apply nseq_in in H. lia. Qed.
Lemma nseq_length n : forall f, length (nseq f n) = n. Proof. induction n; intros; cbn; auto. Qed.
Lemma NoDup_app_disj {A} (l l' : list A) : NoDup l -> NoDup l' -> (forall x, In x l -> ~ In x l') -> NoDup (l ++ l').
Proof. induction 1 as [|x l Hx Hn IH]; intros Hl' Hd; [exact Hl'|]. cbn. constructor; [|apply IH; auto; intros; apply Hd; now right]. intros H. apply in_app_iff in H as [H|H]; [auto|]. apply (Hd x); [now left|exact H]. Qed.

Lemma pres_fan rows jobs T f i h r s ks : rfind i rows = Some r -> ks <> [] ->
  Forall (fun x => r_job x = r_job r /\ r_par x = i /\ exists h', (h' + 3 <= h)%nat /\ (r_st x = APe h' \/ r_st x = ACr h')) ks ->
  map r_id ks = nseq f (length ks) ->
  (s = APar (Z.of_nat (length ks)) 0 /\ Forall (fun x => iscr (r_st x) = false) ks \/
   exists k, 0 <= k /\ s = AEa (Z.of_nat (length ks)) 0 k k /\
     Z.of_nat (cnt (fun x => iscr (r_st x)) ks) = if k =? 0 then 0 else Z.max 0 (Z.of_nat (length ks) - k)) ->
  AI (mkAbs rows jobs (KP i h :: T) f) -> AI (mkAbs (rput (setst r s) rows ++ ks) jobs (kidtoks ks ++ T) (f + N.of_nat (length ks))%N).
Proof.
  intros Hr Hne Hks Hids Hsk HA. assert (Hs : isfin s = false /\ iscr s = false) by (destruct Hsk as [[-> _]|(k & _ & -> & _)]; auto).
  assert (Hfan : isfan s = true) by (destruct Hsk as [[-> _]|(k & _ & -> & _)]; auto).
  assert (Hid := pend_id rows i r Hr). assert (Hst := pend_st rows jobs T f i h r HA Hr). assert (Hin := pend_in rows i r Hr).
  assert (Hrf := pend_rfind rows i r Hr).
  assert (NT := other_toks (KP i h) T i (ai_tn _ HA) (or_introl eq_refl)).
  pendfacts. assert (Hz := pend_zero rows jobs T f i h r HA Hr).
  revert HA. ainv. assert (IN : forall x, In x T -> In x (KP i h :: T)) by (intros; now right).
  rewrite Forall_forall in Hks.
  assert (Kid : forall x, In x ks -> (f <= r_id x < f + N.of_nat (length ks))%N).
  { intros x Hx. apply (in_map r_id) in Hx. rewrite Hids in Hx. apply nseq_in in Hx. exact Hx. }
  assert (Knd : NoDup (map r_id ks)) by (rewrite Hids; apply nseq_nodup).
  assert (Hi0 : (0 < i < f)%N) by (specialize (rf r Hin); rewrite Hid in rf; exact rf).
  destruct (kidtoks_ttok ks) as (K1 & K2 & K3). specialize (K3 Knd).
  assert (Told : forall x y, In x T -> In y (ttok x) -> (y < f)%N).
  { intros x y Hx Hy. assert (exists z, rfind y rows = Some z) as (z & Hz').
    { destruct x as [a b|a|a|a b|a]; cbn in Hy; try destruct Hy as [<-|[]]; try destruct Hy.
      - destruct (kp a b (IN _ Hx)) as (z & A & _); eauto.
      - destruct (kw a (IN _ Hx)) as (z & A & _); eauto.
      - destruct (kc a (IN _ Hx)) as (z & A & _); eauto. }
    apply kfind_some in Hz' as [Hz' <-]. apply rf in Hz'. lia. }
  assert (keepf : forall x y, rfind x (rput (setst r s) rows) = Some y -> rfind x (rput (setst r s) rows ++ ks) = Some y).
  { intros x y E. rewrite kfind_app, E. reflexivity. }
  assert (kfindk : forall x, In x ks -> rfind (r_id x) (rput (setst r s) rows ++ ks) = Some x).
  { intros x Hx. rewrite kfind_app. replace (rfind (r_id x) (rput (setst r s) rows)) with (@None arow); [apply kfind_in; assumption|].
    symmetry. apply kfind_none. rewrite put_keys. intros C. apply in_map_iff in C as (y & E & Hy). apply rf in Hy. apply Kid in Hx. lia. }
  assert (selff : rfind i (rput (setst r s) rows) = Some (setst r s)) by (rewrite pf, Hid, N.eqb_refl; reflexivity).
  assert (kidsnone : forall x, x <> i -> cnt (kid x) ks = 0%nat).
  { intros x Hx. apply cnt_zero. intros y Hy. destruct (Hks y Hy) as (_ & A & _). unfold kid. rewrite A. apply N.eqb_neq. auto. }
  assert (kidsnone' : forall x (g : arow -> bool), x <> i -> cnt (fun y => kid x y && g y)%bool ks = 0%nat).
  { intros x g Hx. apply cnt_zero. intros y Hy. destruct (Hks y Hy) as (_ & A & _). unfold kid. rewrite A. apply andb_false_iff. left. apply N.eqb_neq. auto. }
  assert (knf : forall y, In y ks -> isfin (r_st y) = false).
  { intros y Hy. destruct (Hks y Hy) as (_ & _ & h' & _ & [E|E]); rewrite E; reflexivity. }
  agoal; auto.
  - rewrite map_app, put_keys. apply NoDup_app_disj; [exact rn|exact Knd|]. intros x A B. apply in_map_iff in A as (y & <- & A). apply rf in A.
    rewrite Hids in B. apply nseq_in in B. lia.
  - intros x Hx. apply in_app_iff in Hx as [Hx|Hx].
    + destruct (ids' x Hx) as (x0 & A & <- & _). apply rf in A. lia.
    + apply Kid in Hx. lia.
  - intros q Hq. apply qf in Hq. lia.
  - rewrite flat_map_app. apply NoDup_app_disj; [exact K3|exact (tail_toks _ _ tn)|]. intros x A B. apply in_flat_map in B as (y & B1 & B2). apply (Told y x B1) in B2.
    apply K1 in A. rewrite Hids in A. apply nseq_in in A. lia.
  - rewrite flat_map_app, K2. exact jn.
  - intros x h' Hx. apply in_app_iff in Hx as [Hx|Hx].
    + apply kidtoks_in in Hx as (y & h2 & A & B & E). injection E as -> ->. exists y. split; [apply kfindk; exact A|exact B].
    + destruct (kp x h' (IN _ Hx)) as (y & A & B). exists y. split; [|exact B]. apply keepf, keep'; [exact A|]. intros ->. apply (NT _ Hx). now left.
  - intros x Hx. apply in_app_iff in Hx as [Hx|Hx].
    + apply kidtoks_in in Hx as (y & h2 & A & B & E). discriminate.
    + destruct (kw x (IN _ Hx)) as (y & A & B). exists y. split; [|exact B]. apply keepf, keep'; [exact A|]. intros ->. apply (NT _ Hx). now left.
  - intros x Hx. apply in_app_iff in Hx as [Hx|Hx].
    + apply kidtoks_in in Hx as (y & h2 & A & B & E). discriminate.
    + destruct (kc x (IN _ Hx)) as (y & A & B). exists y. split; [|exact B]. apply keepf, keep'; [exact A|]. intros ->. apply (NT _ Hx). now left.
  - intros x hs Hx. apply in_app_iff in Hx as [Hx|Hx].
    + apply kidtoks_in in Hx as (y & h2 & A & B & E). discriminate.
    + exact (kj x hs (IN _ Hx)).
  - intros x Hx Hp. apply in_app_iff in Hx as [Hx|Hx].
    + destruct (par' x Hx Hp) as (p & A & B). exists p. split; [now apply keepf|exact B].
    + destruct (Hks x Hx) as (A & B & _). exists (setst r s). rewrite B. split; [now apply keepf|]. cbn. split; [now symmetry|]. split; [|now left]. apply Kid in Hx. lia.
  - intros x Hx Hp. apply in_app_iff in Hx as [Hx|Hx].
    + split; [apply scr'; assumption|]. intros Hf. destruct (ids' x Hx) as (x0 & A & _ & B & C & D & E). rewrite <- B, <- D. rewrite <- C in Hp. exact (proj2 (top x0 A Hp) (E Hf)).
    + destruct (Hks x Hx) as (_ & B & _). lia.
  - intros x x' Hx Hx' P P'. apply in_app_iff in Hx as [Hx|Hx]; [|destruct (Hks x Hx) as (_ & B & _); lia].
    apply in_app_iff in Hx' as [Hx'|Hx']; [|destruct (Hks x' Hx') as (_ & B & _); lia]. apply uniq'; assumption.
  - intros x Hx. apply in_app_iff in Hx as [Hx|Hx].
    + apply put_cases in Hx as [->|[Hx Hi]].
      * unfold lively. cbn. assert (0 < Z.of_nat (length ks)) by (destruct ks; [contradiction|cbn [length]; lia]). destruct Hsk as [[-> _]|(k & _ & -> & _)]; cbn; left; lia.
      * eapply lively_frame; [apply live; exact Hx| |].
        -- intros y [<-|Hy] Hy'; [destruct Hy' as [E|[]]; congruence|]. apply in_or_app. now right.
        -- intros s' q _ E. exists q. split; [exact E|]. split; [reflexivity|]. intros; now left.
    + unfold lively. destruct (Hks x Hx) as (_ & _ & h' & _ & [E|E]); rewrite E; [|exact I]. apply in_or_app. left. now apply in_kidtoks.
  - intros x Hx. apply in_app_iff in Hx as [Hx|Hx]; [|unfold counted; destruct (Hks x Hx) as (_ & _ & h' & _ & [E|E]); rewrite E; exact I].
    apply put_cases in Hx as [->|[Hx Hi]].
    + assert (Q1 : kids i (rput (setst r s) rows ++ ks) = Z.of_nat (length ks)).
      { unfold kids. rewrite cnt_app, Nat2Z.inj_add. fold (kids i (rput (setst r s) rows)). rewrite kids', Hz, cnt_all; [lia|]. intros y Hy. destruct (Hks y Hy) as (_ & A & _). unfold kid. rewrite A. apply N.eqb_refl. }
      assert (Q0 : forall g : arow -> bool, cnt (fun y => kid i y && g y)%bool rows = 0%nat).
      { intros g. apply cnt_zero. intros y Hy. apply andb_false_iff. left. apply N.eqb_neq. now apply nk. }
      assert (Q2 : finkids i (rput (setst r s) rows ++ ks) = 0).
      { unfold finkids. rewrite cnt_app, Nat2Z.inj_add. fold (finkids i (rput (setst r s) rows)). rewrite fin'. unfold finkids. rewrite Q0, cnt_zero; [reflexivity|].
        intros y Hy. rewrite (knf y Hy). apply andb_false_r. }
      assert (Q3 : crkids i (rput (setst r s) rows ++ ks) = Z.of_nat (cnt (fun x => iscr (r_st x)) ks)).
      { unfold crkids. rewrite cnt_app, Nat2Z.inj_add. fold (crkids i (rput (setst r s) rows)). rewrite cr'. unfold crkids. rewrite Q0. cbn. f_equal. apply cnt_ext.
        intros y Hy. destruct (Hks y Hy) as (_ & A & _). unfold kid. rewrite A, N.eqb_refl. reflexivity. }
      assert (Hpos : 0 < Z.of_nat (length ks)) by (destruct ks; [contradiction|cbn [length]; lia]).
      unfold counted. cbn [setst r_st r_id]. rewrite Hid. destruct Hsk as [[-> F]|(k & Hk & -> & F)].
      * rewrite Q1, Q2, Q3. rewrite Forall_forall in F. rewrite cnt_zero by exact F. auto.
      * rewrite Q1, Q2, Q3, F. repeat split; auto; lia.
    + assert (r_id x <> i) by congruence. apply (counted_frame rows); [apply cn; exact Hx| | |].
      * unfold kids. rewrite cnt_app, kidsnone by assumption. rewrite Nat.add_0_r. apply kids'.
      * unfold finkids. rewrite cnt_app, kidsnone' by assumption. rewrite Nat.add_0_r. apply fin'.
      * unfold crkids. rewrite cnt_app, kidsnone' by assumption. rewrite Nat.add_0_r. apply cr'.
  - intros x Hx. apply in_app_iff in Hx as [Hx|Hx].
    + destruct (ids' x Hx) as (x0 & A & B & C & _). rewrite <- B, <- C. auto.
    + destruct (Hks x Hx) as (A & _). rewrite A. destruct (own r Hin) as (q & Q1 & Q2 & Q3). exists q. split; [exact Q1|]. split; [exact Q2|]. apply Kid in Hx. apply rf in Hin. lia.
  - intros q Hq. specialize (job q Hq). destruct (q_st q); auto.
    + destruct job as [[E|job] B]; [discriminate|]. split; [|exact B]. apply in_or_app. now right.
    + destruct job as (x & A & B & C & D). destruct (N.eq_dec (r_id x) (r_id r)) as [E|E].
      * exists (setst r s). split; [apply in_or_app; left; apply put_self; exact Hrf|]. assert (x = r) by (apply (nodup_key_eq r_id rows); auto). subst x. cbn. auto.
      * exists x. split; [apply in_or_app; left; now apply put_keep|auto].
  - intros q Hq Hp Hc. destruct (jpar q Hq Hp Hc) as (p & A & B). exists p. split; [|exact B]. apply keepf, keep'; [exact A|]. intros E. rewrite E, Hr in A. injection A as <-. congruence.
Qed.

Lemma pres_sub rows jobs T f i h r s q k : rfind i rows = Some r -> q_id q = f -> q_st q = QPe -> q_hs q <> [] ->
  (s = ASu f /\ q_par q = i /\ k = []) \/ (s = ADe /\ q_par q = 0%N /\ k = [KC i]) ->
  AI (mkAbs rows jobs (KP i h :: T) f) -> AI (mkAbs (rput (setst r s) rows) (jobs ++ [q]) ((KJ f (q_hs q) :: k) ++ T) (N.succ f)).
Proof.
  intros Hr Hqi Hqs Hqh Hk HA. assert (Hs : isfin s = false /\ iscr s = false) by (destruct Hk as [[-> _]|[-> _]]; auto).
  assert (Hid := pend_id rows i r Hr). assert (Hst := pend_st rows jobs T f i h r HA Hr). assert (Hin := pend_in rows i r Hr).
  assert (Hrf := pend_rfind rows i r Hr).
  assert (NT := other_toks (KP i h) T i (ai_tn _ HA) (or_introl eq_refl)).
  pendfacts. revert HA. ainv. assert (IN : forall x, In x T -> In x (KP i h :: T)) by (intros; now right).
  assert (Hi0 : (0 < i < f)%N) by (specialize (rf r Hin); rewrite Hid in rf; exact rf).
  assert (qkeep : forall x y, qfind x jobs = Some y -> qfind x (jobs ++ [q]) = Some y) by (intros x y E; rewrite kfind_app, E; reflexivity).
  assert (Hqn : qfind f jobs = None). { apply kfind_none. intros C. apply in_map_iff in C as (y & E & Hy). apply qf in Hy. lia. }
  assert (qnew : qfind f (jobs ++ [q]) = Some q). { rewrite kfind_app, Hqn. unfold kfind. cbn. rewrite Hqi, N.eqb_refl. reflexivity. }
  assert (rkeep : forall s', ready jobs s' -> ready (jobs ++ [q]) s').
  { intros [] H; cbn in *; auto. destruct H as (y & A & B). exists y. auto. }
  assert (KI : forall x, In x ((KJ f (q_hs q) :: k) ++ T) -> x = KJ f (q_hs q) \/ (x = KC i /\ s = ADe) \/ In x T).
  { intros x Hx. cbn in Hx. destruct Hx as [<-|Hx]; [now left|]. apply in_app_iff in Hx as [Hx|Hx]; [|now right; right].
    destruct Hk as [(_ & _ & ->)|(-> & _ & ->)]; [destruct Hx|]. destruct Hx as [<-|[]]. right; left. auto. }
  assert (KJf : forall x hs, In (KJ x hs) T -> (x < f)%N).
  { intros x hs Hx. destruct (kj x hs (IN _ Hx)) as (y & A & _). apply kfind_some in A as [A <-]. apply qf in A. lia. }
  agoal; auto.
  - now rewrite put_keys.
  - rewrite map_app. apply NoDup_app_disj; [exact qn|repeat constructor; easy|]. intros x A [<-|[]]. apply in_map_iff in A as (y & E & A). apply qf in A. lia.
  - intros x Hx. destruct (ids' x Hx) as (x0 & A & <- & _). apply rf in A. lia.
  - intros x Hx. apply in_app_iff in Hx as [Hx|[<-|[]]]; [apply qf in Hx; lia|lia].
  - cbn. rewrite flat_map_app. destruct Hk as [(_ & _ & ->)|(_ & _ & ->)]; [exact (tail_toks _ _ tn)|exact tn].
  - cbn. rewrite flat_map_app. assert (E : flat_map jtok k = []) by (destruct Hk as [(_ & _ & ->)|(_ & _ & ->)]; reflexivity). rewrite E. cbn. constructor; [|exact (tail_jtoks _ _ jn)].
    intros C. apply in_flat_map in C as (y & A & B). destruct y; cbn in B; try destruct B as [B|[]]; try destruct B. subst. apply KJf in A. lia.
  - intros x h' Hx. destruct (KI _ Hx) as [E|[[E _]|Hx']]; [discriminate|discriminate|]. destruct (kp x h' (IN _ Hx')) as (y & A & B).
    exists y. split; [|exact B]. apply keep'; [exact A|]. intros ->. apply (NT _ Hx'). now left.
  - intros x Hx. destruct (KI _ Hx) as [E|[[E _]|Hx']]; [discriminate|discriminate|].
    destruct (kw x (IN _ Hx')) as (y & A & B). exists y. split; [|exact B]. apply keep'; [exact A|]. intros ->. apply (NT _ Hx'). now left.
  - intros x Hx. destruct (KI _ Hx) as [E|[[E Es]|Hx']]; [discriminate| |].
    + injection E as ->. subst s. exists (setst r ADe). split; [|exact I]. rewrite pf, Hid, N.eqb_refl. reflexivity.
    + destruct (kc x (IN _ Hx')) as (y & A & B). exists y. split; [|auto]. apply keep'; [exact A|]. intros ->. apply (NT _ Hx'). now left.
  - intros x hs Hx. destruct (KI _ Hx) as [E|[[E Es]|Hx']]; [|discriminate|].
    + injection E as -> ->. exists q. auto.
    + destruct (kj x hs (IN _ Hx')) as (y & A & B). exists y. auto.
  - intros x Hx Hp. split; [apply scr'; assumption|]. intros Hf. destruct (ids' x Hx) as (x0 & A & _ & B & C & D & E). rewrite <- B, <- D. rewrite <- C in Hp.
    destruct (proj2 (top x0 A Hp) (E Hf)) as (y & Y1 & Y2). exists y. auto.
  - intros x Hx. apply put_cases in Hx as [->|[Hx Hi]].
    + unfold lively. cbn. rewrite Hid. destruct Hk as [(-> & Eq & ->)|(-> & _ & ->)]; cbn; [|auto]. exists q. split; [exact qnew|]. split; [lia|]. split; [exact Eq|]. left. congruence.
    + eapply lively_frame; [apply live; exact Hx| |].
      * intros y [<-|Hy] Hy'; [destruct Hy' as [E|[]]; congruence|]. apply in_or_app. now right.
      * intros s' y _ E. exists y. split; [auto|]. split; [reflexivity|]. intros; now left.
  - intros x Hx. apply put_cases in Hx as [->|[Hx Hi]].
    + destruct Hk as [(-> & _)|(-> & _)]; exact I.
    + apply (counted_frame rows); auto.
  - intros x Hx. destruct (ids' x Hx) as (x0 & A & B & C & _). rewrite <- B, <- C. destruct (own x0 A) as (y & Y1 & Y2). exists y. auto.
  - intros y Hy. apply in_app_iff in Hy as [Hy|[<-|[]]].
    + specialize (job y Hy). destruct (q_st y); auto.
      * destruct job as [[E|job] B]; [discriminate|]. split; [|exact B]. apply in_or_app. now right.
      * destruct job as (x & A & B & C & D). destruct (N.eq_dec (r_id x) (r_id r)) as [E|E].
        -- exists (setst r s). split; [apply put_self; exact Hrf|]. assert (x = r) by (apply (nodup_key_eq r_id rows); auto). subst x. cbn. auto.
        -- exists x. split; [now apply put_keep|auto].
    + rewrite Hqs, Hqi. split; [now left|exact Hqh].
  - intros y Hy Hp Hc. apply in_app_iff in Hy as [Hy|[<-|[]]].
    + destruct (jpar y Hy Hp Hc) as (p & A & B). exists p. split; [|exact B]. apply keep'; [exact A|]. intros E. rewrite E, Hr in A. injection A as <-. congruence.
    + destruct Hk as [(-> & E & _)|(_ & E & _)]; [|contradiction]. exists (setst r (ASu f)). rewrite E, Hqi. split; [|reflexivity]. rewrite pf, Hid, N.eqb_refl. reflexivity.
Qed.

(** a task is finished *)
Section Finish.
Variables (rows : list arow) (jobs : list ajob) (T : list atok) (f : N) (i : N) (r : arow).
Hypothesis HA : AI (mkAbs rows jobs (KC i :: T) f).
Hypothesis Hr : rfind i rows = Some r.
Lemma done_id : r_id r = i. Proof. exact (proj2 (kfind_some r_id i rows r Hr)). Qed.
Lemma done_in : In r rows. Proof. exact (proj1 (kfind_some r_id i rows r Hr)). Qed.
Lemma done_rfind : rfind (r_id r) rows = Some r. Proof. rewrite done_id. exact Hr. Qed.
Lemma done_ready : ready jobs (r_st r).
Proof. destruct (ai_kc _ HA i (or_introl eq_refl)) as (x & A & B). cbn in A, B. rewrite Hr in A. injection A as ->. exact B. Qed.
Lemma done_notfin : r_st r <> AFi. Proof. intros E. pose proof done_ready as H. rewrite E in H. exact H. Qed.
Lemma done_notcr : iscr (r_st r) = false. Proof. pose proof done_ready as H. destruct (r_st r); try reflexivity. destruct H. Qed.
Lemma done_isfin : isfin (r_st r) = false. Proof. pose proof done_notfin as H. destruct (r_st r); try reflexivity. congruence. Qed.
Lemma done_pos : (0 < i < f)%N. Proof. pose proof (ai_rf _ HA r done_in) as H. cbn in H. rewrite done_id in H. exact H. Qed.
Lemma done_kids x : In x rows -> r_par x = i -> r_st x = AFi.
Proof.
  intros Hx E. assert (Hp : r_par x <> 0%N) by (pose proof done_pos; lia).
  destruct (ai_par _ HA x Hx Hp) as (p & A & _ & _ & B). cbn [a_rows] in A. rewrite E, Hr in A. injection A as <-. destruct B as [B|[B _]]; [|contradiction (done_notfin B)].
  pose proof (ai_cnt _ HA r done_in) as C. pose proof done_ready as D. unfold counted in C. cbn [a_rows] in C. rewrite done_id in C.
  assert (Q : kids i rows <= finkids i rows) by (destruct (r_st r); try discriminate; cbn in D; lia).
  assert (Q' : cnt (fun r => kid i r && isfin (r_st r))%bool rows = cnt (kid i) rows).
  { apply Nat.le_antisymm; [apply cnt_le; intros y _ Hy; now apply andb_true_iff in Hy|]. unfold kids, finkids in Q. lia. }
  pose proof (cnt_eq_all _ _ rows (fun y _ Hy => proj1 (proj1 (andb_true_iff _ _) Hy)) Q' x Hx) as R. cbn in R. unfold kid in R at 1. rewrite E, N.eqb_refl in R. specialize (R eq_refl).
  apply andb_true_iff in R as [_ R]. destruct (r_st x); try discriminate. reflexivity.
Qed.
Notation rows' := (rput (setst r AFi) rows).
Lemma done_find x : rfind x rows' = if N.eqb x i then Some (setst r AFi) else rfind x rows.
Proof. rewrite (put_find rows r AFi done_rfind), done_id. reflexivity. Qed.
Lemma done_cases x : In x rows' -> x = setst r AFi \/ (In x rows /\ r_id x <> i).
Proof. intros H. apply put_cases in H. rewrite done_id in H. exact H. Qed.
Lemma done_keep x y : rfind x rows = Some y -> x <> i -> rfind x rows' = Some y.
Proof. intros A B. rewrite done_find. apply N.eqb_neq in B. rewrite B. exact A. Qed.
Lemma done_par x : In x rows' -> r_par x <> 0%N -> exists p, rfind (r_par x) rows' = Some p /\ r_job p = r_job x /\ (r_par x < r_id x)%N /\
    (isfan (r_st p) = true \/ (r_st p = AFi /\ r_st x = AFi)).
Proof.
  intros Hx Hp. rewrite done_find. apply done_cases in Hx as [->|[Hx Hi]].
  - cbn in *. destruct (ai_par _ HA r done_in Hp) as (p & A & B & C & D). rewrite done_id in C. destruct (N.eqb (r_par r) i) eqn:E; [apply N.eqb_eq in E; lia|].
    exists p. rewrite done_id. split; [exact A|]. split; [exact B|]. split; [exact C|]. destruct D as [D|[_ D]]; [now left|contradiction (done_notfin D)].
  - destruct (ai_par _ HA x Hx Hp) as (p & A & B & C & D). cbn [a_rows] in A. destruct (N.eqb (r_par x) i) eqn:E.
    + apply N.eqb_eq in E. rewrite E, Hr in A. injection A as <-. exists (setst r AFi). cbn. rewrite E. split; [reflexivity|]. split; [exact B|]. rewrite <- E. split; [exact C|]. right. split; [reflexivity|]. apply done_kids; assumption.
    + exists p. split; [exact A|]. split; [exact B|]. split; [exact C|exact D].
Qed.
Lemma done_fin x : finkids x rows' = finkids x rows + (if kid x r then 1 else 0).
Proof. rewrite (put_fin rows r AFi (ai_rn _ HA) done_rfind). rewrite done_isfin. cbn. rewrite andb_false_r, andb_true_r. lia. Qed.
Lemma done_cr x : crkids x rows' = crkids x rows.
Proof. rewrite (put_cr rows r AFi (ai_rn _ HA) done_rfind). rewrite done_notcr. cbn. rewrite !andb_false_r. lia. Qed.
Lemma done_cnt x : kids x rows' = kids x rows.
Proof. apply put_kids; [exact (ai_rn _ HA)|exact done_rfind]. Qed.
Lemma done_other k x : In k T -> In x (ttok k) -> x <> i.
Proof. intros Hk Hx ->. exact (other_toks (KC i) T i (ai_tn _ HA) (or_introl eq_refl) k Hk Hx). Qed.
Lemma done_jpar q : In q jobs -> q_par q <> 0%N -> q_st q <> QCo -> exists p, rfind (q_par q) rows' = Some p /\ r_st p = ASu (q_id q).
Proof.
  intros Hq Hp Hc. destruct (ai_jpar _ HA q Hq Hp Hc) as (p & A & B). cbn [a_rows] in A. exists p. split; [|exact B]. apply done_keep; [exact A|].
  intros E. rewrite E, Hr in A. injection A as <-. pose proof done_ready as D. rewrite B in D. destruct D as (q' & D1 & D2).
  pose proof (kfind_in q_id jobs q (ai_qn _ HA) Hq) as D3. rewrite D1 in D3. injection D3 as ->. contradiction.
Qed.
Lemma done_uniq x x' : In x rows' -> In x' rows' -> r_par x = 0%N -> r_par x' = 0%N -> r_job x = r_job x' -> r_st x <> AFi -> r_st x' <> AFi -> x = x'.
Proof.
  intros Hx Hx' P P' J F F'. apply done_cases in Hx as [->|[Hx _]]; [contradiction F; reflexivity|]. apply done_cases in Hx' as [->|[Hx' _]]; [contradiction F'; reflexivity|].
  exact (ai_uniq _ HA x x' Hx Hx' P P' J F F').
Qed.
Lemma done_kp x h : In (KP x h) T -> exists y, rfind x rows' = Some y /\ r_st y = APe h.
Proof. intros H. destruct (ai_kp _ HA x h (or_intror H)) as (y & A & B). exists y. split; [|exact B]. apply done_keep; [exact A|]. apply (done_other _ _ H). now left. Qed.
Lemma done_kw x : In (KW x) T -> exists y, rfind x rows' = Some y /\ r_st y = AWo.
Proof. intros H. destruct (ai_kw _ HA x (or_intror H)) as (y & A & B). exists y. split; [|exact B]. apply done_keep; [exact A|]. apply (done_other _ _ H). now left. Qed.
Lemma done_kc x : In (KC x) T -> exists y, rfind x rows' = Some y /\ ready jobs (r_st y).
Proof. intros H. destruct (ai_kc _ HA x (or_intror H)) as (y & A & B). exists y. split; [|exact B]. apply done_keep; [exact A|]. apply (done_other _ _ H). now left. Qed.
Lemma done_live x T' : In x rows -> r_id x <> i -> (forall k, In k T -> In k T') -> lively jobs T' x.
Proof.
  intros Hx Hi HT. eapply lively_frame; [exact (ai_live _ HA x Hx)| |].
  - intros k [<-|Hk] Hk'; [destruct Hk' as [E|[]]; congruence|]. auto.
  - intros s q _ E. exists q. split; [exact E|]. split; [reflexivity|]. intros; now left.
Qed.
Lemma done_ids x : In x rows' -> exists x0, In x0 rows /\ r_id x0 = r_id x /\ r_job x0 = r_job x /\ r_par x0 = r_par x /\ r_pos x0 = r_pos x.
Proof. intros Hx. apply done_cases in Hx as [->|[Hx Hi]]; [exists r; cbn; repeat split; apply done_in|exists x; auto 10]. Qed.
End Finish.

(** everything holds but what is said of task [p] alone *)
Record AIx (p : N) (a : abs) : Prop := {
  ax_rn : NoDup (map r_id (a_rows a));
  ax_qn : NoDup (map q_id (a_jobs a));
  ax_rf : forall r, In r (a_rows a) -> (0 < r_id r < a_fresh a)%N;
  ax_qf : forall q, In q (a_jobs a) -> (0 < q_id q < a_fresh a)%N;
  ax_tn : NoDup (flat_map ttok (a_toks a));
  ax_jn : NoDup (flat_map jtok (a_toks a));
  ax_kp : forall i h, In (KP i h) (a_toks a) -> exists r, rfind i (a_rows a) = Some r /\ r_st r = APe h;
  ax_kw : forall i, In (KW i) (a_toks a) -> exists r, rfind i (a_rows a) = Some r /\ r_st r = AWo;
  ax_kc : forall i, In (KC i) (a_toks a) -> i <> p /\ exists r, rfind i (a_rows a) = Some r /\ ready (a_jobs a) (r_st r);
  ax_kj : forall i hs, In (KJ i hs) (a_toks a) -> exists q, qfind i (a_jobs a) = Some q /\ q_st q = QPe /\ q_hs q = hs;
  ax_par : forall r, In r (a_rows a) -> r_par r <> 0%N -> exists p, rfind (r_par r) (a_rows a) = Some p /\ r_job p = r_job r /\ (r_par r < r_id r)%N /\
    (isfan (r_st p) = true \/ (r_st p = AFi /\ r_st r = AFi));
  ax_top : forall r, In r (a_rows a) -> r_par r = 0%N -> iscr (r_st r) = false /\ (r_st r <> AFi ->
    exists q, qfind (r_job r) (a_jobs a) = Some q /\ q_st q = QLi /\ r_pos r = q_pos q /\ 1 <= q_pos q <= Z.of_nat (length (q_hs q)));
  ax_uniq : forall r r', In r (a_rows a) -> In r' (a_rows a) -> r_par r = 0%N -> r_par r' = 0%N -> r_job r = r_job r' ->
    r_st r <> AFi -> r_st r' <> AFi -> r = r';
  ax_live : forall r, In r (a_rows a) -> r_id r <> p -> lively (a_jobs a) (a_toks a) r;
  ax_cnt : forall r, In r (a_rows a) -> r_id r <> p -> counted (a_rows a) r;
  ax_own : forall r, In r (a_rows a) -> exists q, qfind (r_job r) (a_jobs a) = Some q /\ q_st q <> QPe /\ (r_job r < r_id r)%N;
  ax_job : forall q, In q (a_jobs a) -> match q_st q with
    | QPe => In (KJ (q_id q) (q_hs q)) (a_toks a) /\ q_hs q <> []
    | QLi => exists r, In r (a_rows a) /\ r_job r = q_id q /\ r_par r = 0%N /\ r_st r <> AFi
    | QCo => True
    | QBad => False end;
  ax_jpar : forall q, In q (a_jobs a) -> q_par q <> 0%N -> q_st q <> QCo ->
    exists p, rfind (q_par q) (a_rows a) = Some p /\ r_st p = ASu (q_id q) }.

Lemma finish_kid rows jobs T f i r p : rfind i rows = Some r -> r_par r <> 0%N -> rfind (r_par r) rows = Some p ->
  AI (mkAbs rows jobs (KC i :: T) f) ->
  isfan (r_st p) = true /\ rfind (r_par r) (rput (setst r AFi) rows) = Some p /\ AIx (r_par r) (mkAbs (rput (setst r AFi) rows) jobs T f).
Proof.
  intros Hr Hp Hpr HA. assert (Hin := done_in rows i r Hr). assert (Hid := done_id rows i r Hr).
  destruct (ai_par _ HA r Hin Hp) as (p' & A & B & C & D). cbn [a_rows] in A. rewrite Hpr in A. injection A as <-.
  assert (Hfan : isfan (r_st p) = true) by (destruct D as [D|[_ D]]; [exact D|contradiction (done_notfin rows jobs T f i r HA Hr D)]).
  assert (Hne : r_par r <> i) by (rewrite Hid in C; lia).
  split; [exact Hfan|]. split; [now apply (done_keep rows i r Hr)|].
  pose proof (done_par rows jobs T f i r HA Hr) as par'. pose proof (done_uniq rows jobs T f i r HA Hr) as uniq'. pose proof (done_jpar rows jobs T f i r HA Hr) as jpar'.
  pose proof (done_kp rows jobs T f i r HA Hr) as kp'. pose proof (done_kw rows jobs T f i r HA Hr) as kw'. pose proof (done_kc rows jobs T f i r HA Hr) as kc'.
  pose proof (done_ids rows i r Hr) as ids'. pose proof (done_fin rows jobs T f i r HA Hr) as fin'. pose proof (done_cr rows jobs T f i r HA Hr) as cr'. pose proof (done_cnt rows jobs T f i r HA Hr) as kids'.
  pose proof (done_notfin rows jobs T f i r HA Hr) as nf. assert (live' : forall x, In x rows -> r_id x <> i -> lively jobs T x) by (intros; eapply done_live; eauto).
  pose proof (done_cases rows i r Hr) as cases'. pose proof (done_rfind rows i r Hr) as Hrf.
  pose proof (done_keep rows i r Hr) as keep'.
  assert (Hpid : r_id p = r_par r) by (apply kfind_some in Hpr; tauto).
  assert (NC : forall x, In (KC x) T -> x <> r_par r).
  { intros x Hx ->. destruct (ai_kc _ HA _ (or_intror Hx)) as (y & Y1 & Y2). cbn [a_rows a_jobs] in *. rewrite Hpr in Y1. injection Y1 as <-.
    pose proof (ai_cnt _ HA p (proj1 (kfind_some r_id _ _ _ Hpr))) as CN. unfold counted in CN. cbn [a_rows] in CN. rewrite Hpid in CN.
    assert (Q : kids (r_par r) rows <= finkids (r_par r) rows) by (destruct (r_st p); try discriminate; cbn in Y2; lia).
    assert (Q' : cnt (fun y => kid (r_par r) y && isfin (r_st y))%bool rows = cnt (kid (r_par r)) rows).
    { apply Nat.le_antisymm; [apply cnt_le; intros y _ Hy; now apply andb_true_iff in Hy|]. unfold kids, finkids in Q. lia. }
    pose proof (cnt_eq_all _ _ rows (fun y _ Hy => proj1 (proj1 (andb_true_iff _ _) Hy)) Q' r Hin) as R. cbn in R. unfold kid in R at 1. rewrite N.eqb_refl in R. specialize (R eq_refl).
    apply andb_true_iff in R as [_ R]. destruct (r_st r); try discriminate. now apply nf. }
  revert HA. ainv. split; cbn [a_rows a_jobs a_toks a_fresh]; auto.
  - now rewrite put_keys.
  - intros x Hx. destruct (ids' x Hx) as (x0 & X & <- & _). auto.
  - exact (tail_toks _ _ tn).
  - intros x hs Hx. apply kj. now right.
  - intros x Hx Hp'. apply cases' in Hx as [->|[Hx Hi]]; [cbn in Hp'; contradiction|]. apply top; assumption.
  - intros x Hx Hxp. apply cases' in Hx as [->|[Hx Hi]]; [exact I|]. apply live'; assumption.
  - intros x Hx Hxp. apply cases' in Hx as [->|[Hx Hi]]; [exact I|]. apply (counted_frame rows); auto.
    rewrite fin'. assert (E : kid (r_id x) r = false) by (apply N.eqb_neq; auto). rewrite E. lia.
  - intros x Hx. destruct (ids' x Hx) as (x0 & A & B' & C' & _). rewrite <- B', <- C'. auto.
  - intros q Hq. specialize (job q Hq). destruct (q_st q); auto.
    + destruct job as [[E|job] B']; [discriminate|]. auto.
    + destruct job as (x & A & B' & C' & D'). exists x. split; [apply put_keep; [exact A|]|auto]. intros E. assert (x = r) by (apply (nodup_key_eq r_id rows); auto). subst x. contradiction.
Qed.

Lemma release_kid rows jobs T f p pr x h : AIx p (mkAbs rows jobs T f) -> rfind p rows = Some pr -> isfan (r_st pr) = true -> In x rows -> r_par x = p -> r_st x = ACr h -> p <> 0%N ->
  rfind p (rput (setst x (APe h)) rows) = Some pr /\ AIx p (mkAbs (rput (setst x (APe h)) rows) jobs (KP (r_id x) h :: T) f).
Proof.
  intros [rn qn rf qf tn jn kp kw kc kj par top uniq live cn own job jpar] Hpr Hfan Hx Hxp Hxs Hp0; cbn [a_rows a_jobs a_toks a_fresh] in *.
  assert (Hrf := kfind_in r_id rows x rn Hx). assert (Hpx : p <> r_id x).
  { intros E. rewrite E in Hpr. rewrite Hrf in Hpr. injection Hpr as ->. rewrite Hxs in Hfan. discriminate. }
  pose proof (put_find rows x (APe h) Hrf) as pf.
  assert (keep' : forall y z, rfind y rows = Some z -> r_st z <> ACr h -> rfind y (rput (setst x (APe h)) rows) = Some z).
  { intros y z E Hz. rewrite pf. destruct (N.eqb y (r_id x)) eqn:Ey; [|exact E]. apply N.eqb_eq in Ey. rewrite Ey, Hrf in E. injection E as <-. contradiction. }
  assert (cases' : forall y, In y (rput (setst x (APe h)) rows) -> y = setst x (APe h) \/ (In y rows /\ r_id y <> r_id x)) by (apply put_cases).
  assert (NT : forall k, In k T -> ~ In (r_id x) (ttok k)).
  { intros k Hk Hi. destruct k as [a b|a|a|a b|a]; cbn in Hi; try contradiction; destruct Hi as [Hi|[]].
    - destruct (kp a b Hk) as (y & A & B). rewrite Hi, Hrf in A. injection A as <-. congruence.
    - destruct (kw a Hk) as (y & A & B). rewrite Hi, Hrf in A. injection A as <-. congruence.
    - destruct (kc a Hk) as (_ & y & A & B). rewrite Hi, Hrf in A. injection A as <-. rewrite Hxs in B. exact B. }
  split; [apply keep'; [exact Hpr|intros E; rewrite E in Hfan; discriminate]|].
  assert (ids' : forall y, In y (rput (setst x (APe h)) rows) -> exists y0, In y0 rows /\ r_id y0 = r_id y /\ r_job y0 = r_job y /\ r_par y0 = r_par y).
  { intros y Hy. apply cases' in Hy as [->|[Hy _]]; [exists x; auto|exists y; auto]. }
  split; cbn [a_rows a_jobs a_toks a_fresh]; auto.
  - now rewrite put_keys.
  - intros y Hy. destruct (ids' y Hy) as (y0 & A & <- & _). auto.
  - cbn. constructor; [|exact tn]. intros C. apply in_flat_map in C as (k & A & B). exact (NT k A B).
  - intros y h' [E|Hy].
    + injection E as <- <-. exists (setst x (APe h)). split; [|reflexivity]. rewrite pf, N.eqb_refl. reflexivity.
    + destruct (kp y h' Hy) as (z & A & B). exists z. split; [apply keep'; [exact A|congruence]|exact B].
  - intros y [E|Hy]; [discriminate|]. destruct (kw y Hy) as (z & A & B). exists z. split; [apply keep'; [exact A|congruence]|exact B].
  - intros y [E|Hy]; [discriminate|]. destruct (kc y Hy) as (D & z & A & B). split; [exact D|]. exists z. split; [apply keep'; [exact A|]|exact B]. intros E. rewrite E in B. exact B.
  - intros y hs [E|Hy]; [discriminate|]. auto.
  - intros y Hy Hyp. assert (HY : exists y0, In y0 rows /\ r_par y0 = r_par y /\ r_job y0 = r_job y /\ r_id y0 = r_id y /\ (r_st y0 = AFi -> r_st y = AFi)).
    { apply cases' in Hy as [->|[Hy _]]; [exists x; cbn; repeat split; auto; congruence|exists y; auto]. }
    destruct HY as (y0 & Y1 & Y2 & Y3 & Y4 & Y5). rewrite <- Y2 in Hyp. destruct (par y0 Y1 Hyp) as (z & A & B & C & D). rewrite Y2, Y3, Y4 in *.
    exists z. split; [apply keep'; [exact A|]|split; [exact B|split; [exact C|tauto]]]. intros E. rewrite E in D. destruct D as [D|[D _]]; discriminate.
  - intros y Hy Hyp. apply cases' in Hy as [->|[Hy _]]; [cbn in Hyp; congruence|]. apply top; assumption.
  - intros y y' Hy Hy' P P'. apply cases' in Hy as [->|[Hy _]]; [cbn in P; congruence|]. apply cases' in Hy' as [->|[Hy' _]]; [cbn in P'; congruence|]. apply uniq; assumption.
  - intros y Hy Hyp. apply cases' in Hy as [->|[Hy _]]; [left; reflexivity|]. eapply lively_frame; [apply live; assumption| |].
    + intros k Hk _. now right.
    + intros s q _ E. exists q. split; [exact E|]. split; [reflexivity|]. intros; now left.
  - intros y Hy Hyp. apply cases' in Hy as [->|[Hy _]]; [exact I|]. apply (counted_frame rows); [apply cn; assumption|now apply put_kids| |].
    + rewrite (put_fin rows x _ rn Hrf), Hxs. cbn. rewrite !andb_false_r. lia.
    + rewrite (put_cr rows x _ rn Hrf), Hxs. cbn. assert (E : kid (r_id y) x = false) by (apply N.eqb_neq; congruence). rewrite E. cbn. lia.
  - intros y Hy. destruct (ids' y Hy) as (y0 & A & B & C & _). rewrite <- B, <- C. auto.
  - intros q Hq. specialize (job q Hq). destruct (q_st q); auto.
    + destruct job as [J1 J2]. split; [now right|exact J2].
    + destruct job as (y & A & B & C & D). exists y. split; [apply put_keep; [exact A|]|auto]. intros E. assert (y = x) by (apply (nodup_key_eq r_id rows); auto). subst y. congruence.
  - intros q Hq Hqp Hc. destruct (jpar q Hq Hqp Hc) as (z & A & B). exists z. split; [apply keep'; [exact A|congruence]|exact B].
Qed.

Lemma close_parent rows jobs T f p pr sp new : AIx p (mkAbs rows jobs T f) -> rfind p rows = Some pr -> isfan (r_st pr) = true -> isfan sp = true ->
  counted rows (setst pr sp) ->
  ((new = [KC p] /\ ready jobs sp) \/ (new = [] /\ match sp with APar n c | AEa n c _ _ => c < n | _ => False end)) ->
  AI (mkAbs (rput (setst pr sp) rows) jobs (new ++ T) f).
Proof.
  intros [rn qn rf qf tn jn kp kw kc kj par top uniq live cn own job jpar] Hpr Hfan Hfan' Hcnt Hnew; cbn [a_rows a_jobs a_toks a_fresh] in *.
  assert (Hpin := proj1 (kfind_some r_id _ _ _ Hpr)). assert (Hpid := proj2 (kfind_some r_id _ _ _ Hpr)). assert (Hrf : rfind (r_id pr) rows = Some pr) by (now rewrite Hpid).
  pose proof (put_find rows pr sp Hrf) as pf. rewrite Hpid in pf.
  assert (cases' : forall y, In y (rput (setst pr sp) rows) -> y = setst pr sp \/ (In y rows /\ r_id y <> p)) by (intros y Hy; rewrite <- Hpid; now apply put_cases).
  assert (keep' : forall y z, rfind y rows = Some z -> y <> p -> rfind y (rput (setst pr sp) rows) = Some z).
  { intros y z E Hz. rewrite pf. apply N.eqb_neq in Hz. now rewrite Hz. }
  assert (ids' : forall y, In y (rput (setst pr sp) rows) -> exists y0, In y0 rows /\ r_id y0 = r_id y /\ r_job y0 = r_job y /\ r_par y0 = r_par y /\ r_pos y0 = r_pos y /\ (r_st y0 = AFi <-> r_st y = AFi)).
  { intros y Hy. apply cases' in Hy as [->|[Hy _]]; [exists pr; cbn; repeat split; auto; intros E; [rewrite E in Hfan|rewrite E in Hfan']; discriminate|exists y; tauto]. }
  assert (NT : forall k, In k T -> ~ In p (ttok k)).
  { intros k Hk Hi. destruct k as [a b|a|a|a b|a]; cbn in Hi; try contradiction; destruct Hi as [Hi|[]]; subst.
    - destruct (kp _ b Hk) as (y & A & B). rewrite Hrf in A. injection A as <-. rewrite B in Hfan. discriminate.
    - destruct (kw _ Hk) as (y & A & B). rewrite Hrf in A. injection A as <-. rewrite B in Hfan. discriminate.
    - destruct (kc _ Hk) as (C & _). congruence. }
  assert (NK : forall k, In k (new ++ T) -> (k = KC p /\ ready jobs sp) \/ In k T).
  { intros k Hk. apply in_app_iff in Hk as [Hk|Hk]; [|now right]. destruct Hnew as [[-> Hrd]|[-> _]]; [|destruct Hk]. destruct Hk as [<-|[]]. left; auto. }
  assert (nfs : forall x, finkids x (rput (setst pr sp) rows) = finkids x rows).
  { intros x. rewrite (put_fin rows pr _ rn Hrf). destruct (r_st pr); try discriminate; destruct sp; try discriminate; cbn; rewrite !andb_false_r; lia. }
  assert (ncs : forall x, crkids x (rput (setst pr sp) rows) = crkids x rows).
  { intros x. rewrite (put_cr rows pr _ rn Hrf). destruct (r_st pr); try discriminate; destruct sp; try discriminate; cbn; rewrite !andb_false_r; lia. }
  agoal; auto.
  - now rewrite put_keys.
  - intros y Hy. destruct (ids' y Hy) as (y0 & A & <- & _). auto.
  - rewrite flat_map_app. destruct Hnew as [[-> _]|[-> _]]; [|exact tn]. cbn. constructor; [|exact tn]. intros C. apply in_flat_map in C as (k & A & B). exact (NT k A B).
  - rewrite flat_map_app. destruct Hnew as [[-> _]|[-> _]]; exact jn.
  - intros y h Hy. destruct (NK _ Hy) as [[E _]|Hy']; [discriminate|]. destruct (kp y h Hy') as (z & A & B). exists z. split; [apply keep'; [exact A|]|exact B].
    intros ->. apply (NT _ Hy'). now left.
  - intros y Hy. destruct (NK _ Hy) as [[E _]|Hy']; [discriminate|]. destruct (kw y Hy') as (z & A & B). exists z. split; [apply keep'; [exact A|]|exact B].
    intros ->. apply (NT _ Hy'). now left.
  - intros y Hy. destruct (NK _ Hy) as [[E Hrd]|Hy'].
    + injection E as ->. exists (setst pr sp). split; [rewrite pf, N.eqb_refl; reflexivity|exact Hrd].
    + destruct (kc y Hy') as (D & z & A & B). exists z. split; [apply keep'; assumption|exact B].
  - intros y hs Hy. destruct (NK _ Hy) as [[E _]|Hy']; [discriminate|]. auto.
  - intros y Hy Hyp. destruct (ids' y Hy) as (y0 & Y1 & Y2 & Y3 & Y4 & _ & Y5). rewrite <- Y4 in Hyp. destruct (par y0 Y1 Hyp) as (z & A & B & C & D). rewrite Y2, Y3, Y4 in *.
    destruct (N.eq_dec (r_par y) p) as [E|E].
    + rewrite E, Hpr in A. injection A as <-. exists (setst pr sp). rewrite pf, E, N.eqb_refl. split; [reflexivity|]. cbn. split; [exact B|]. rewrite <- E. split; [exact C|]. now left.
    + exists z. split; [apply keep'; assumption|]. split; [exact B|]. split; [exact C|]. tauto.
  - intros y Hy Hyp. destruct (ids' y Hy) as (y0 & Y1 & Y2 & Y3 & Y4 & Y6 & Y5). rewrite <- Y4 in Hyp. destruct (top y0 Y1 Hyp) as (A & B). rewrite Y3, Y6 in B. split; [|tauto].
    apply cases' in Hy as [->|[Hy _]]; [destruct sp; try discriminate; reflexivity|]. apply (top y Hy). congruence.
  - intros y y' Hy Hy' P P' J F F'. apply cases' in Hy as [->|[Hy Ny]]; apply cases' in Hy' as [->|[Hy' Ny']]; auto; cbn in *.
    + exfalso. apply Ny'. rewrite <- Hpid. f_equal. symmetry. apply uniq; auto. intros E; rewrite E in Hfan; discriminate.
    + exfalso. apply Ny. rewrite <- Hpid. f_equal. apply uniq; auto. intros E; rewrite E in Hfan; discriminate.
  - intros y Hy. apply cases' in Hy as [->|[Hy Ny]].
    + unfold lively. cbn. rewrite Hpid. destruct Hnew as [[-> _]|[-> Hlt]]; destruct sp; try discriminate; cbn; auto.
    + eapply lively_frame; [apply live; assumption| |].
      * intros k Hk _. apply in_or_app. now right.
      * intros s q _ E. exists q. split; [exact E|]. split; [reflexivity|]. intros; now left.
  - intros y Hy. apply cases' in Hy as [->|[Hy Ny]].
    + apply (counted_frame rows); auto. now apply put_kids.
    + apply (counted_frame rows); auto. now apply put_kids.
  - intros y Hy. destruct (ids' y Hy) as (y0 & A & B & C & _). rewrite <- B, <- C. auto.
  - intros q Hq. specialize (job q Hq). destruct (q_st q); auto.
    + destruct job as [J1 J2]. split; [apply in_or_app; now right|exact J2].
    + destruct job as (y & A & B & C & D). destruct (N.eq_dec (r_id y) p) as [E|E].
      * assert (y = pr) by (apply (nodup_key_eq r_id rows); auto; congruence). subst y. exists (setst pr sp). split; [now apply put_self|]. cbn. repeat split; auto. intros E'; rewrite E' in Hfan'; discriminate.
      * exists y. split; [apply put_keep; [exact A|congruence]|auto].
  - intros q Hq Hqp Hc. destruct (jpar q Hq Hqp Hc) as (z & A & B). exists z. split; [apply keep'; [exact A|]|exact B]. intros E. rewrite E, Hpr in A. injection A as <-. rewrite B in Hfan. discriminate.
Qed.

Lemma pres_kid rows jobs T f i r p n c : rfind i rows = Some r -> r_par r <> 0%N -> rfind (r_par r) rows = Some p -> r_st p = APar n c ->
  AI (mkAbs rows jobs (KC i :: T) f) ->
  AI (mkAbs (rput (setst p (APar n (c + 1))) (rput (setst r AFi) rows)) jobs ((if n <=? c + 1 then [KC (r_par r)] else []) ++ T) f).
Proof.
  intros Hr Hp Hpr Hst HA. destruct (finish_kid rows jobs T f i r p Hr Hp Hpr HA) as (Hfan & Hpr' & HX).
  apply (close_parent _ _ _ _ (r_par r) p); auto.
  - pose proof (ai_cnt _ HA p (proj1 (kfind_some r_id _ _ _ Hpr))) as CN. unfold counted in *. cbn [a_rows] in CN. rewrite Hst in CN. cbn [setst r_st r_id].
    assert (E := proj2 (kfind_some r_id _ _ _ Hpr)). rewrite E in *. destruct CN as (C1 & C2 & C3 & C4).
    rewrite (done_cnt rows jobs T f i r HA Hr), (done_fin rows jobs T f i r HA Hr), (done_cr rows jobs T f i r HA Hr), C2, C3, C4. unfold kid. rewrite N.eqb_refl. auto.
  - destruct (n <=? c + 1) eqn:E; [left|right]; (split; [reflexivity|]); cbn; lia.
Qed.
Lemma pres_item rows jobs T f i r p n c k ix : rfind i rows = Some r -> r_par r <> 0%N -> rfind (r_par r) rows = Some p -> r_st p = AEa n c k ix ->
  (negb (n <=? c + 1) && (0 <? k) && (ix <? n))%bool = false ->
  AI (mkAbs rows jobs (KC i :: T) f) ->
  AI (mkAbs (rput (setst p (AEa n (c + 1) k (ix + 1))) (rput (setst r AFi) rows)) jobs ((if n <=? c + 1 then [KC (r_par r)] else []) ++ T) f).
Proof.
  intros Hr Hp Hpr Hst Hrel HA. destruct (finish_kid rows jobs T f i r p Hr Hp Hpr HA) as (Hfan & Hpr' & HX).
  apply (close_parent _ _ _ _ (r_par r) p); auto.
  - pose proof (ai_cnt _ HA p (proj1 (kfind_some r_id _ _ _ Hpr))) as CN. unfold counted in *. cbn [a_rows] in CN. rewrite Hst in CN. cbn [setst r_st r_id].
    assert (E := proj2 (kfind_some r_id _ _ _ Hpr)). rewrite E in *. destruct CN as (C1 & C2 & C3 & C4 & C5 & C6).
    rewrite (done_cnt rows jobs T f i r HA Hr), (done_fin rows jobs T f i r HA Hr), (done_cr rows jobs T f i r HA Hr), C4, C5, C6. unfold kid. rewrite N.eqb_refl.
    repeat (split; [lia|]). destruct (k =? 0) eqn:Ek; [reflexivity|]. destruct (n <=? c + 1) eqn:E1; [lia|]. destruct (0 <? k) eqn:E2; [|lia]. destruct (ix <? n) eqn:E3; [discriminate|lia].
  - destruct (n <=? c + 1) eqn:E; [left|right]; (split; [reflexivity|]); cbn; lia.
Qed.
Lemma pres_release rows jobs T f i r p n c k ix x h : rfind i rows = Some r -> r_par r <> 0%N -> rfind (r_par r) rows = Some p -> r_st p = AEa n c k ix ->
  (negb (n <=? c + 1) && (0 <? k) && (ix <? n))%bool = true -> In x rows -> r_par x = r_par r -> r_st x = ACr h ->
  AI (mkAbs rows jobs (KC i :: T) f) ->
  AI (mkAbs (rput (setst p (AEa n (c + 1) k (ix + 1))) (rput (setst x (APe h)) (rput (setst r AFi) rows))) jobs ([KP (r_id x) h] ++ T) f).
Proof.
  intros Hr Hp Hpr Hst Hrel Hx Hxp Hxs HA. destruct (finish_kid rows jobs T f i r p Hr Hp Hpr HA) as (Hfan & Hpr' & HX).
  assert (Hxi : r_id x <> r_id r).
  { intros E. assert (x = r) by (apply (nodup_key_eq r_id rows); [exact (ai_rn _ HA)|exact Hx|exact (done_in rows i r Hr)|exact E]). subst x.
    pose proof (done_notcr rows jobs T f i r HA Hr) as H. rewrite Hxs in H. discriminate. }
  assert (Hx' : In x (rput (setst r AFi) rows)) by (now apply put_keep).
  destruct (release_kid _ _ _ _ _ _ x h HX Hpr' Hfan Hx' Hxp Hxs Hp) as (Hpr'' & HX').
  rewrite !andb_true_iff, negb_true_iff in Hrel. destruct Hrel as [[L1 L2] L3].
  apply (close_parent _ _ (KP (r_id x) h :: T) _ (r_par r) p _ []); auto.
  - pose proof (ai_cnt _ HA p (proj1 (kfind_some r_id _ _ _ Hpr))) as CN. unfold counted in *. cbn [a_rows] in CN. rewrite Hst in CN. cbn [setst r_st r_id].
    assert (E := proj2 (kfind_some r_id _ _ _ Hpr)). rewrite E in *. destruct CN as (C1 & C2 & C3 & C4 & C5 & C6).
    assert (Hn := ax_rn _ _ HX). cbn [a_rows] in Hn. assert (Hrf := kfind_in r_id _ x Hn Hx').
    rewrite (put_kids _ x _ Hn Hrf), (put_fin _ x _ Hn Hrf), (put_cr _ x _ Hn Hrf), Hxs. cbn [isfin iscr]. rewrite andb_false_r, andb_true_r.
    rewrite (done_cnt rows jobs T f i r HA Hr), (done_fin rows jobs T f i r HA Hr), (done_cr rows jobs T f i r HA Hr), C4, C5, C6. unfold kid. rewrite N.eqb_refl, Hxp, N.eqb_refl. cbn [andb].
    repeat (split; [lia|]). destruct (k =? 0) eqn:Ek; lia.
  - right. split; [reflexivity|]. lia.
Qed.

(** a top-level task is finished and the job moves on *)
Lemma jput_find jobs q p s i : qfind (q_id q) jobs = Some q -> qfind i (qput (setq q p s) jobs) = if N.eqb i (q_id q) then Some (setq q p s) else qfind i jobs.
Proof. intros H. exact (kfind_put q_id (setq q p s) jobs i q H). Qed.
Lemma jput_cases jobs q p s x : In x (qput (setq q p s) jobs) -> x = setq q p s \/ (In x jobs /\ q_id x <> q_id q).
Proof. intros H. apply kput_in in H as [[H _]|H]; auto. Qed.
Lemma jput_keys jobs q p s : map q_id (qput (setq q p s) jobs) = map q_id jobs.
Proof. apply kput_keys. Qed.

Lemma pres_next rows jobs T f i r q h : rfind i rows = Some r -> r_par r = 0%N -> qfind (r_job r) jobs = Some q -> nth_error (q_hs q) (Z.to_nat (q_pos q)) = Some h ->
  AI (mkAbs rows jobs (KC i :: T) f) ->
  AI (mkAbs (rput (setst r AFi) rows ++ [mkRow f (r_job r) 0%N (q_pos q + 1) (APe h)]) (qput (setq q (q_pos q + 1) (q_st q)) jobs) ([KP f h] ++ T) (N.succ f)).
Proof.
  intros Hr Hp Hq Hnth HA. assert (Hin := done_in rows i r Hr). assert (Hid := done_id rows i r Hr).
  pose proof (done_par rows jobs T f i r HA Hr) as par'. pose proof (done_uniq rows jobs T f i r HA Hr) as uniq'. pose proof (done_jpar rows jobs T f i r HA Hr) as jpar'.
  pose proof (done_kp rows jobs T f i r HA Hr) as kp'. pose proof (done_kw rows jobs T f i r HA Hr) as kw'. pose proof (done_kc rows jobs T f i r HA Hr) as kc'.
  pose proof (done_ids rows i r Hr) as ids'. pose proof (done_fin rows jobs T f i r HA Hr) as fin'. pose proof (done_cr rows jobs T f i r HA Hr) as cr'. pose proof (done_cnt rows jobs T f i r HA Hr) as kids'.
  pose proof (done_notfin rows jobs T f i r HA Hr) as nf. assert (live' : forall x, In x rows -> r_id x <> i -> lively jobs T x) by (intros; eapply done_live; eauto).
  pose proof (done_cases rows i r Hr) as cases'. pose proof (done_rfind rows i r Hr) as Hrf.
  pose proof (done_keep rows i r Hr) as keep'.
  revert HA. ainv. assert (IN : forall x, In x T -> In x (KC i :: T)) by (intros; now right).
  assert (Hqid := proj2 (kfind_some q_id _ _ _ Hq)). assert (Hqin := proj1 (kfind_some q_id _ _ _ Hq)).
  assert (Hqf : qfind (q_id q) jobs = Some q) by (now rewrite Hqid).
  destruct (top r Hin Hp) as (_ & Top). destruct (Top nf) as (q0 & Q1 & Q2 & Q3 & Q4). rewrite Hq in Q1. injection Q1 as <-.
  set (n := mkRow f (r_job r) 0%N (q_pos q + 1) (APe h)). set (q' := setq q (q_pos q + 1) (q_st q)).
  assert (Hlen : (Z.to_nat (q_pos q) < length (q_hs q))%nat) by (apply nth_error_Some; congruence).
  assert (jf : forall x, qfind x (qput q' jobs) = if N.eqb x (q_id q) then Some q' else qfind x jobs) by (intros; now apply jput_find).
  assert (jc : forall x, In x (qput q' jobs) -> x = q' \/ (In x jobs /\ q_id x <> q_id q)) by (intros; now apply jput_cases).
  assert (jk : forall x y, qfind x jobs = Some y -> exists y', qfind x (qput q' jobs) = Some y' /\ q_st y' = q_st y /\ q_par y' = q_par y /\ q_hs y' = q_hs y).
  { intros x y E. rewrite jf. destruct (N.eqb x (q_id q)) eqn:Ex; [|exists y; auto]. apply N.eqb_eq in Ex. subst x. rewrite Hqf in E. injection E as <-. exists q'. auto. }
  assert (rk : forall s, ready jobs s -> ready (qput q' jobs) s).
  { intros [] H; cbn in *; auto. destruct H as (y & A & B). destruct (jk _ _ A) as (y' & A' & B' & _). exists y'. split; [exact A'|congruence]. }
  assert (ap : forall x y, rfind x (rput (setst r AFi) rows) = Some y -> rfind x (rput (setst r AFi) rows ++ [n]) = Some y) by (intros x y E; rewrite kfind_app, E; reflexivity).
  assert (Hnf : rfind f (rput (setst r AFi) rows) = None). { apply kfind_none. rewrite put_keys. intros C. apply in_map_iff in C as (y & E & Hy). apply rf in Hy. lia. }
  assert (nf' : rfind f (rput (setst r AFi) rows ++ [n]) = Some n) by (rewrite kfind_app, Hnf; unfold kfind; cbn; now rewrite N.eqb_refl).
  assert (lv : forall x, lively jobs T x -> lively (qput q' jobs) ([KP f h] ++ T) x).
  { intros x Hl. eapply lively_frame; [exact Hl|intros k Hk _; now right|]. intros s y _ E. destruct (jk _ _ E) as (y' & A & B & C & _). exists y'. split; [exact A|]. split; [exact C|]. intros _ D. left. congruence. }
  assert (noid : forall k, In k T -> ~ In f (ttok k)).
  { intros k Hk Hi. destruct k as [a b|a|a|a b|a]; cbn in Hi; try contradiction; destruct Hi as [<-|[]].
    - destruct (kp a b (IN _ Hk)) as (y & A & _). apply kfind_some in A as [A1 A2]. apply rf in A1. lia.
    - destruct (kw a (IN _ Hk)) as (y & A & _). apply kfind_some in A as [A1 A2]. apply rf in A1. lia.
    - destruct (kc a (IN _ Hk)) as (y & A & _). apply kfind_some in A as [A1 A2]. apply rf in A1. lia. }
  assert (f0 : (0 < f)%N) by (apply rf in Hin; lia).
  agoal; auto.
  - rewrite map_app, put_keys. apply NoDup_app_disj; [exact rn|repeat constructor; easy|]. intros x A [<-|[]]. apply in_map_iff in A as (y & E & A). apply rf in A. cbn in E. lia.
  - unfold q'. rewrite jput_keys. exact qn.
  - intros x Hx. apply in_app_iff in Hx as [Hx|[<-|[]]]; [|cbn; lia]. destruct (ids' x Hx) as (x0 & A & <- & _). apply rf in A. lia.
  - intros x Hx. apply jc in Hx as [->|[Hx _]]; [cbn; apply qf in Hqin; lia|]. apply qf in Hx. lia.
  - cbn. constructor; [|exact (tail_toks _ _ tn)]. intros C. apply in_flat_map in C as (k & A & B). exact (noid k A B).
  - intros x h' [E|Hx]; [injection E as <- <-; exists n; auto|]. destruct (kp' x h' Hx) as (y & A & B). exists y. auto.
  - intros x [E|Hx]; [discriminate|]. destruct (kw' x Hx) as (y & A & B). exists y. auto.
  - intros x [E|Hx]; [discriminate|]. destruct (kc' x Hx) as (y & A & B). exists y. auto.
  - intros x hs [E|Hx]; [discriminate|]. destruct (kj x hs (IN _ Hx)) as (y & A & B & C). destruct (jk _ _ A) as (y' & A' & B' & _ & C'). exists y'. split; [exact A'|]. split; congruence.
  - intros x Hx Hxp. apply in_app_iff in Hx as [Hx|[<-|[]]]; [|cbn in Hxp; lia]. destruct (par' x Hx Hxp) as (p & A & B). exists p. auto.
  - intros x Hx Hxp. apply in_app_iff in Hx as [Hx|[<-|[]]].
    + apply cases' in Hx as [->|[Hx Hi]]; [split; [reflexivity|]; cbn; congruence|]. destruct (top x Hx Hxp) as (A & B). split; [exact A|]. intros Hf.
      destruct (N.eq_dec (r_job x) (r_job r)) as [E|E]; [exfalso; apply Hi; rewrite <- Hid; f_equal; apply uniq; auto; congruence|].
      destruct (B Hf) as (y & B1 & B2). exists y. split; [|exact B2]. rewrite jf, Hqid. apply N.eqb_neq in E. rewrite E. exact B1.
    + split; [reflexivity|]. intros _. exists q'. cbn [n r_job r_pos]. rewrite jf, Hqid, N.eqb_refl. split; [reflexivity|]. unfold q'. cbn. split; [exact Q2|]. split; [reflexivity|]. lia.
  - intros x x' Hx Hx' P P' J F F'. apply in_app_iff in Hx as [Hx|[<-|[]]]; apply in_app_iff in Hx' as [Hx'|[<-|[]]]; auto.
    + exfalso. apply cases' in Hx as [->|[Hx Hi]]; [apply F; reflexivity|]. cbn in J. apply Hi. rewrite <- Hid. f_equal. apply uniq; auto; congruence.
    + exfalso. apply cases' in Hx' as [->|[Hx' Hi]]; [apply F'; reflexivity|]. cbn in J. apply Hi. rewrite <- Hid. f_equal. apply uniq; auto; congruence.
  - intros x Hx. apply in_app_iff in Hx as [Hx|[<-|[]]]; [|left; reflexivity]. apply cases' in Hx as [->|[Hx Hi]]; [exact I|]. apply lv. auto.
  - intros x Hx. apply in_app_iff in Hx as [Hx|[<-|[]]]; [|exact I]. apply cases' in Hx as [->|[Hx Hi]]; [exact I|].
    assert (Hx0 : kid (r_id x) n = false) by (apply N.eqb_neq; cbn; apply rf in Hx; lia).
    assert (Hx1 : kid (r_id x) r = false) by (apply N.eqb_neq; rewrite Hp; apply rf in Hx; lia).
    apply (counted_frame rows); auto.
    + unfold kids. rewrite cnt_app, Nat2Z.inj_add. fold (kids (r_id x) (rput (setst r AFi) rows)). rewrite kids'. unfold cnt at 1. cbn [filter]. rewrite Hx0. cbn. unfold kids. lia.
    + unfold finkids. rewrite cnt_app, Nat2Z.inj_add. fold (finkids (r_id x) (rput (setst r AFi) rows)). rewrite fin', Hx1. unfold cnt at 1. cbn [filter]. rewrite Hx0. cbn. unfold finkids. lia.
    + unfold crkids. rewrite cnt_app, Nat2Z.inj_add. fold (crkids (r_id x) (rput (setst r AFi) rows)). rewrite cr'. unfold cnt at 1. cbn [filter]. rewrite Hx0. cbn. unfold crkids. lia.
  - intros x Hx. assert (O : exists y, qfind (r_job x) jobs = Some y /\ q_st y <> QPe /\ (r_job x < r_id x)%N).
    { apply in_app_iff in Hx as [Hx|[<-|[]]]; [destruct (ids' x Hx) as (x0 & A & B & C & _); rewrite <- B, <- C; auto|]. destruct (own r Hin) as (y & A & B & C). exists y. cbn. split; [exact A|]. split; [exact B|]. apply rf in Hin. lia. }
    destruct O as (y & A & B & C). destruct (jk _ _ A) as (y' & A' & B' & _). exists y'. split; [exact A'|]. split; [congruence|exact C].
  - intros y Hy. apply jc in Hy as [->|[Hy Hi]].
    + cbn [q' setq q_st]. rewrite Q2. exists n. split; [apply in_or_app; right; now left|]. cbn. split; [congruence|]. split; [reflexivity|discriminate].
    + specialize (job y Hy). destruct (q_st y); auto.
      * destruct job as [[E|job] B]; [discriminate|]. split; [now right|exact B].
      * destruct job as (x & A & B & C & D). exists x. split; [|auto]. apply in_or_app. left. apply put_keep; [exact A|]. intros E. assert (x = r) by (apply (nodup_key_eq r_id rows); auto). subst x. congruence.
  - intros y Hy Hyp Hc. assert (Y : exists y0, In y0 jobs /\ q_par y0 = q_par y /\ q_id y0 = q_id y /\ q_st y0 = q_st y).
    { apply jc in Hy as [->|[Hy Hi]]; [exists q; cbn; auto|exists y; auto]. }
    destruct Y as (y0 & Y1 & Y2 & Y3 & Y4). rewrite <- Y2 in Hyp |- *. rewrite <- Y3. rewrite <- Y4 in Hc. destruct (jpar' y0 Y1 Hyp Hc) as (p & A & B). exists p. auto.
Qed.

Lemma pres_end rows jobs T f i r q : rfind i rows = Some r -> r_par r = 0%N -> qfind (r_job r) jobs = Some q ->
  AI (mkAbs rows jobs (KC i :: T) f) ->
  AI (mkAbs (rput (setst r AFi) rows) (qput (setq q (q_pos q + 1) QCo) jobs) ([if N.eqb (q_par q) 0 then KO 0 else KC (q_par q)] ++ T) f).
Proof.
  intros Hr Hp Hq HA. assert (Hin := done_in rows i r Hr). assert (Hid := done_id rows i r Hr).
  pose proof (done_par rows jobs T f i r HA Hr) as par'. pose proof (done_uniq rows jobs T f i r HA Hr) as uniq'. pose proof (done_jpar rows jobs T f i r HA Hr) as jpar'.
  pose proof (done_kp rows jobs T f i r HA Hr) as kp'. pose proof (done_kw rows jobs T f i r HA Hr) as kw'. pose proof (done_kc rows jobs T f i r HA Hr) as kc'.
  pose proof (done_ids rows i r Hr) as ids'. pose proof (done_fin rows jobs T f i r HA Hr) as fin'. pose proof (done_cr rows jobs T f i r HA Hr) as cr'. pose proof (done_cnt rows jobs T f i r HA Hr) as kids'.
  pose proof (done_notfin rows jobs T f i r HA Hr) as nf. assert (live' : forall x, In x rows -> r_id x <> i -> lively jobs T x) by (intros; eapply done_live; eauto).
  pose proof (done_cases rows i r Hr) as cases'. pose proof (done_rfind rows i r Hr) as Hrf.
  pose proof (done_keep rows i r Hr) as keep'.
  revert HA. ainv. assert (IN : forall x, In x T -> In x (KC i :: T)) by (intros; now right).
  assert (Hqid := proj2 (kfind_some q_id _ _ _ Hq)). assert (Hqin := proj1 (kfind_some q_id _ _ _ Hq)).
  assert (Hqf : qfind (q_id q) jobs = Some q) by (now rewrite Hqid).
  destruct (top r Hin Hp) as (_ & Top). destruct (Top nf) as (q0 & Q1 & Q2 & Q3 & Q4). rewrite Hq in Q1. injection Q1 as <-.
  set (q' := setq q (q_pos q + 1) QCo). set (k0 := if N.eqb (q_par q) 0 then KO 0 else KC (q_par q)).
  assert (jf : forall x, qfind x (qput q' jobs) = if N.eqb x (q_id q) then Some q' else qfind x jobs) by (intros; now apply jput_find).
  assert (jc : forall x, In x (qput q' jobs) -> x = q' \/ (In x jobs /\ q_id x <> q_id q)) by (intros; now apply jput_cases).
  assert (rk : forall s, ready jobs s -> ready (qput q' jobs) s).
  { intros [] H; cbn in *; auto. destruct H as (y & A & B). exists (if N.eqb s (q_id q) then q' else y). rewrite jf. destruct (N.eqb s (q_id q)); auto. }
  assert (K0 : forall k, In k ([k0] ++ T) -> (k = KO 0 /\ q_par q = 0%N) \/ (k = KC (q_par q) /\ q_par q <> 0%N) \/ In k T).
  { intros k [<-|Hk]; [|now right; right]. unfold k0. destruct (N.eqb (q_par q) 0) eqn:E; [apply N.eqb_eq in E; auto|apply N.eqb_neq in E; auto]. }
  assert (PP : q_par q <> 0%N -> exists p, rfind (q_par q) rows = Some p /\ r_st p = ASu (q_id q) /\ q_par q <> i /\ forall k, In k T -> ~ In (q_par q) (ttok k)).
  { intros Hn. assert (Hc : q_st q <> QCo) by congruence. destruct (jpar q Hqin Hn Hc) as (p & A & B). exists p. split; [exact A|]. split; [exact B|].
    assert (NR : ~ ready jobs (r_st p)) by (rewrite B; intros (y & Y1 & Y2); rewrite Hqf in Y1; injection Y1 as <-; congruence). split.
    - intros E. destruct (kc i (or_introl eq_refl)) as (y & Y1 & Y2). rewrite <- E, A in Y1. injection Y1 as <-. contradiction.
    - intros k Hk Hi. destruct k as [a b|a|a|a b|a]; cbn in Hi; try contradiction; destruct Hi as [Hi|[]]; subst a.
      + destruct (kp _ b (IN _ Hk)) as (y & Y1 & Y2). rewrite A in Y1. injection Y1 as <-. congruence.
      + destruct (kw _ (IN _ Hk)) as (y & Y1 & Y2). rewrite A in Y1. injection Y1 as <-. congruence.
      + destruct (kc _ (IN _ Hk)) as (y & Y1 & Y2). rewrite A in Y1. injection Y1 as <-. contradiction. }
  agoal; auto.
  - now rewrite put_keys.
  - unfold q'. rewrite jput_keys. exact qn.
  - intros x Hx. destruct (ids' x Hx) as (x0 & A & <- & _). auto.
  - intros x Hx. apply jc in Hx as [->|[Hx _]]; [exact (qf q Hqin)|auto].
  - unfold k0. destruct (N.eqb (q_par q) 0) eqn:E; [exact (tail_toks _ _ tn)|]. apply N.eqb_neq in E. destruct (PP E) as (p & _ & _ & _ & NT).
    cbn. constructor; [|exact (tail_toks _ _ tn)]. intros C. apply in_flat_map in C as (k & A & B). exact (NT k A B).
  - unfold k0. destruct (N.eqb (q_par q) 0); exact (tail_jtoks _ _ jn).
  - intros x h' Hx. destruct (K0 _ Hx) as [[E _]|[[E _]|Hx']]; [discriminate|discriminate|]. exact (kp' x h' Hx').
  - intros x Hx. destruct (K0 _ Hx) as [[E _]|[[E _]|Hx']]; [discriminate|discriminate|]. exact (kw' x Hx').
  - intros x Hx. destruct (K0 _ Hx) as [[E _]|[[E Hn]|Hx']]; [discriminate| |].
    + injection E as ->. destruct (PP Hn) as (p & A & B & C & _). exists p. split; [now apply keep'|]. rewrite B. cbn. exists q'. rewrite jf, N.eqb_refl. auto.
    + destruct (kc' x Hx') as (y & A & B). exists y. auto.
  - intros x hs Hx. destruct (K0 _ Hx) as [[E _]|[[E _]|Hx']]; [discriminate|discriminate|]. destruct (kj x hs (IN _ Hx')) as (y & A & B & C).
    exists y. split; [|auto]. rewrite jf. destruct (N.eqb x (q_id q)) eqn:Ex; [|exact A]. apply N.eqb_eq in Ex. rewrite Ex, Hqf in A. injection A as <-. congruence.
  - intros x Hx Hxp. apply cases' in Hx as [->|[Hx Hi]]; [split; [reflexivity|]; cbn; congruence|]. destruct (top x Hx Hxp) as (A & B). split; [exact A|]. intros Hf.
    destruct (N.eq_dec (r_job x) (r_job r)) as [E|E]; [exfalso; apply Hi; rewrite <- Hid; f_equal; apply uniq; auto; congruence|].
    destruct (B Hf) as (y & B1 & B2). exists y. split; [|exact B2]. rewrite jf, Hqid. apply N.eqb_neq in E. rewrite E. exact B1.
  - intros x Hx. apply cases' in Hx as [->|[Hx Hi]]; [exact I|]. eapply lively_frame; [apply live'; assumption|intros k Hk _; now right|].
    intros s y _ E. rewrite jf. destruct (N.eqb s (q_id q)) eqn:Es; [|exists y; split; [exact E|]; split; [reflexivity|]; intros; now left].
    apply N.eqb_eq in Es. subst s. rewrite Hqf in E. injection E as <-. exists q'. split; [reflexivity|]. split; [reflexivity|]. intros Ep _. right. rewrite <- Ep. unfold k0.
    assert (Hn : q_par q <> 0%N) by (apply rf in Hx; lia). apply N.eqb_neq in Hn. rewrite Hn. now left.
  - intros x Hx. apply cases' in Hx as [->|[Hx Hi]]; [exact I|].
    assert (Hx1 : kid (r_id x) r = false) by (apply N.eqb_neq; rewrite Hp; apply rf in Hx; lia).
    apply (counted_frame rows); auto. rewrite fin', Hx1. lia.
  - intros x Hx. destruct (ids' x Hx) as (x0 & A & B & C & _). rewrite <- B, <- C. destruct (own x0 A) as (y & Y1 & Y2 & Y3). rewrite jf.
    destruct (N.eqb (r_job x0) (q_id q)); [exists q'; split; [reflexivity|]; split; [discriminate|exact Y3]|exists y; auto].
  - intros y Hy. apply jc in Hy as [->|[Hy Hi]]; [exact I|]. specialize (job y Hy). destruct (q_st y); auto.
    + destruct job as [[E|job] B]; [discriminate|]. split; [now right|exact B].
    + destruct job as (x & A & B & C & D). exists x. split; [|auto]. apply put_keep; [exact A|]. intros E. assert (x = r) by (apply (nodup_key_eq r_id rows); auto). subst x. congruence.
  - intros y Hy Hyp Hc. apply jc in Hy as [->|[Hy Hi]]; [contradiction Hc; reflexivity|]. exact (jpar' y Hy Hyp Hc).
Qed.

Lemma pres_start rows jobs T f i h hs q : qfind i jobs = Some q -> q_hs q = h :: hs ->
  AI (mkAbs rows jobs (KJ i (h :: hs) :: T) f) ->
  AI (mkAbs (rows ++ [mkRow f i 0%N 1 (APe h)]) (qput (setq q 1 QLi) jobs) ([KP f h] ++ T) (N.succ f)).
Proof.
  intros Hq Hhs. ainv. assert (IN : forall x, In x T -> In x (KJ i (h :: hs) :: T)) by (intros; now right).
  assert (Hqid := proj2 (kfind_some q_id _ _ _ Hq)). assert (Hqin := proj1 (kfind_some q_id _ _ _ Hq)).
  assert (Hqf : qfind (q_id q) jobs = Some q) by (now rewrite Hqid).
  destruct (kj i (h :: hs) (or_introl eq_refl)) as (q0 & Q1 & Q2 & _). rewrite Hq in Q1. injection Q1 as <-.
  set (n := mkRow f i 0%N 1 (APe h)). set (q' := setq q 1 QLi).
  assert (NR : forall x, In x rows -> r_job x <> i). { intros x Hx E. destruct (own x Hx) as (y & Y1 & Y2 & _). rewrite E, Hq in Y1. injection Y1 as <-. contradiction. }
  assert (jf : forall x, qfind x (qput q' jobs) = if N.eqb x (q_id q) then Some q' else qfind x jobs) by (intros; now apply jput_find).
  assert (jc : forall x, In x (qput q' jobs) -> x = q' \/ (In x jobs /\ q_id x <> q_id q)) by (intros; now apply jput_cases).
  assert (jk : forall x y, qfind x jobs = Some y -> x <> i -> qfind x (qput q' jobs) = Some y).
  { intros x y E Hx. rewrite jf, Hqid. apply N.eqb_neq in Hx. now rewrite Hx. }
  assert (jk' : forall x y, qfind x jobs = Some y -> exists y', qfind x (qput q' jobs) = Some y' /\ q_par y' = q_par y /\ (q_st y <> QPe -> y' = y) /\ (q_st y = QCo -> q_st y' = QCo) /\ (q_st y <> QCo -> q_st y' <> QCo)).
  { intros x y E. rewrite jf. destruct (N.eqb x (q_id q)) eqn:Ex; [|exists y; auto]. apply N.eqb_eq in Ex. subst x. rewrite Hqf in E. injection E as <-. exists q'. unfold q'. cbn. repeat split; auto; congruence. }
  assert (rk : forall s, ready jobs s -> ready (qput q' jobs) s).
  { intros [] H; cbn in *; auto. destruct H as (y & A & B). destruct (jk' _ _ A) as (y' & A' & _ & _ & B' & _). exists y'. auto. }
  assert (ap : forall x y, rfind x rows = Some y -> rfind x (rows ++ [n]) = Some y) by (intros x y E; rewrite kfind_app, E; reflexivity).
  assert (Hnf : rfind f rows = None). { apply kfind_none. intros C. apply in_map_iff in C as (y & E & Hy). apply rf in Hy. lia. }
  assert (nf' : rfind f (rows ++ [n]) = Some n) by (rewrite kfind_app, Hnf; unfold kfind; cbn; now rewrite N.eqb_refl).
  assert (f0 : (0 < i < f)%N) by (apply qf in Hqin; lia).
  assert (noid : forall k, In k T -> ~ In f (ttok k)).
  { intros k Hk Hi. destruct k as [a b|a|a|a b|a]; cbn in Hi; try contradiction; destruct Hi as [<-|[]].
    - destruct (kp a b (IN _ Hk)) as (y & A & _). apply kfind_some in A as [A1 A2]. apply rf in A1. lia.
    - destruct (kw a (IN _ Hk)) as (y & A & _). apply kfind_some in A as [A1 A2]. apply rf in A1. lia.
    - destruct (kc a (IN _ Hk)) as (y & A & _). apply kfind_some in A as [A1 A2]. apply rf in A1. lia. }
  assert (lv : forall x, lively jobs (KJ i (h :: hs) :: T) x -> lively (qput q' jobs) ([KP f h] ++ T) x).
  { intros x Hl. eapply lively_frame; [exact Hl|intros k [<-|Hk] Hi; [destruct Hi|now right]|]. intros s y _ E. destruct (jk' _ _ E) as (y' & A & B & _ & _ & C). exists y'. split; [exact A|]. split; [exact B|]. intros _ D. left. auto. }
  agoal; auto.
  - rewrite map_app. apply NoDup_app_disj; [exact rn|repeat constructor; easy|]. intros x A [<-|[]]. apply in_map_iff in A as (y & E & A). apply rf in A. cbn in E. lia.
  - unfold q'. rewrite jput_keys. exact qn.
  - intros x Hx. apply in_app_iff in Hx as [Hx|[<-|[]]]; [|cbn; lia]. apply rf in Hx. lia.
  - intros x Hx. apply jc in Hx as [->|[Hx _]]; [cbn; lia|]. apply qf in Hx. lia.
  - cbn. constructor; [|exact tn]. intros C. apply in_flat_map in C as (k & A & B). exact (noid k A B).
  - exact (tail_jtoks _ _ jn).
  - intros x h' [E|Hx]; [injection E as <- <-; exists n; auto|]. destruct (kp x h' (IN _ Hx)) as (y & A & B). exists y. auto.
  - intros x [E|Hx]; [discriminate|]. destruct (kw x (IN _ Hx)) as (y & A & B). exists y. auto.
  - intros x [E|Hx]; [discriminate|]. destruct (kc x (IN _ Hx)) as (y & A & B). exists y. auto.
  - intros x hs' [E|Hx]; [discriminate|]. destruct (kj x hs' (IN _ Hx)) as (y & A & B). exists y. split; [|exact B]. apply jk; [exact A|]. intros ->.
    cbn in jn. inversion jn as [|? ? C _]; subst. apply C. apply in_flat_map. exists (KJ (q_id q) hs'). split; [exact Hx|now left].
  - intros x Hx Hxp. apply in_app_iff in Hx as [Hx|[<-|[]]]; [|cbn in Hxp; lia]. destruct (par x Hx Hxp) as (p & A & B). exists p. auto.
  - intros x Hx Hxp. apply in_app_iff in Hx as [Hx|[<-|[]]].
    + destruct (top x Hx Hxp) as (A & B). split; [exact A|]. intros Hf. destruct (B Hf) as (y & B1 & B2). exists y. split; [|exact B2]. apply jk; [exact B1|]. now apply NR.
    + split; [reflexivity|]. intros _. exists q'. cbn [n r_job r_pos]. rewrite jf, Hqid, N.eqb_refl. split; [reflexivity|]. unfold q'. cbn. rewrite Hhs. split; [reflexivity|]. split; [reflexivity|]. cbn [length]. lia.
  - intros x x' Hx Hx' P P' J F F'. apply in_app_iff in Hx as [Hx|[<-|[]]]; apply in_app_iff in Hx' as [Hx'|[<-|[]]]; auto.
    + exfalso. exact (NR x Hx J).
    + exfalso. exact (NR x' Hx' (eq_sym J)).
  - intros x Hx. apply in_app_iff in Hx as [Hx|[<-|[]]]; [|left; reflexivity]. apply lv. auto.
  - intros x Hx. apply in_app_iff in Hx as [Hx|[<-|[]]]; [|exact I].
    assert (Hx0 : kid (r_id x) n = false) by (apply N.eqb_neq; cbn; apply rf in Hx; lia).
    apply (counted_frame rows); auto; unfold kids, finkids, crkids; rewrite cnt_app, Nat2Z.inj_add; unfold cnt at 2; cbn [filter]; rewrite Hx0; cbn; lia.
  - intros x Hx. apply in_app_iff in Hx as [Hx|[<-|[]]].
    + destruct (own x Hx) as (y & A & B & C). exists y. split; [|auto]. apply jk; [exact A|]. now apply NR.
    + exists q'. cbn [n r_job r_id]. rewrite jf, Hqid, N.eqb_refl. split; [reflexivity|]. split; [discriminate|lia].
  - intros y Hy. apply jc in Hy as [->|[Hy Hi]].
    + exists n. split; [apply in_or_app; right; now left|]. cbn. split; [congruence|]. split; [reflexivity|discriminate].
    + specialize (job y Hy). destruct (q_st y); auto.
      * destruct job as [[E|job] B]; [injection E as E _; congruence|]. split; [now right|exact B].
      * destruct job as (x & A & B & C & D). exists x. split; [|auto]. apply in_or_app. now left.
  - intros y Hy Hyp Hc. assert (Y : exists y0, In y0 jobs /\ q_par y0 = q_par y /\ q_id y0 = q_id y /\ q_st y0 <> QCo).
    { apply jc in Hy as [->|[Hy Hi]]; [exists q; cbn; repeat split; auto; congruence|exists y; auto]. }
    destruct Y as (y0 & Y1 & Y2 & Y3 & Y4). rewrite <- Y2 in Hyp |- *. rewrite <- Y3. destruct (jpar y0 Y1 Hyp Y4) as (p & A & B). exists p. auto.
Qed.

Lemma pres a a' : astep a a' -> AI a -> AI a'.
Proof.
  destruct 1.
  - apply (pres_other rows jobs T f l new); assumption.
  - apply pres_worker; assumption.
  - apply (pres_simple rows jobs T f i h r s k); assumption.
  - apply (pres_fan rows jobs T f i h r s ks); assumption.
  - apply (pres_sub rows jobs T f i h r s q k); assumption.
  - apply pres_kid; assumption.
  - apply pres_item; assumption.
  - apply (pres_release rows jobs T f i r p n c k ix x h); assumption.
  - apply (pres_next rows jobs T f i r q h); assumption.
  - apply (pres_end rows jobs T f i r q); assumption.
  - apply (pres_start rows jobs T f i h hs q); assumption.
Qed.

(** ** Every step decreases the levels *)
Section Levels.
Local Open Scope nat_scope.
(** [cont i]: a bound on what is still to come once task [i] is finished; [jc i] the same for job [i] *)
Definition lev (cont jc : N -> nat) (k : atok) : nat :=
  match k with KP i h => h + cont i | KW i => 4 + cont i | KC i => 3 + cont i | KJ i hs => 1 + sumn hs + jc i | KO l => l end.
Definition crl (cont : N -> nat) (rows : list arow) : list nat :=
  flat_map (fun r => match r_st r with ACr h => [h + cont (r_id r) + 1] | _ => [] end) rows.
Definition mu (cont jc : N -> nat) (a : abs) : list nat := map (lev cont jc) (a_toks a) ++ crl cont (a_rows a).
Record AIc (cont jc : N -> nat) (a : abs) : Prop := {
  ac_par : forall r, In r (a_rows a) -> r_par r <> 0%N -> cont (r_par r) < cont (r_id r);
  ac_top : forall r q, In r (a_rows a) -> r_par r = 0%N -> qfind (r_job r) (a_jobs a) = Some q ->
    jc (r_job r) + sumn (skipn (Z.to_nat (r_pos r)) (q_hs q)) <= cont (r_id r);
  ac_sub : forall q, In q (a_jobs a) -> q_par q <> 0%N -> (q_par q < q_id q)%N /\ cont (q_par q) < jc (q_id q) }.

Lemma msimple x T C new extra : Forall (fun y => y < x) new -> Forall (fun y => y < x) extra -> mplus ((new ++ T) ++ C ++ extra) ((x :: T) ++ C).
Proof.
  intros H H'. apply mp1. exists x, (T ++ C), (new ++ extra). split; [reflexivity|]. split; [|now apply Forall_app].
  rewrite <- !app_assoc. apply Permutation_app_head. rewrite app_assoc, (Permutation_app_comm (T ++ C) extra). reflexivity.
Qed.
Lemma crl_put cont r s rows : NoDup (map r_id rows) -> rfind (r_id r) rows = Some r -> iscr (r_st r) = false -> iscr s = false -> crl cont (rput (setst r s) rows) = crl cont rows.
Proof.
  intros Hn Hr Hc Hs. unfold crl, kput. rewrite !flat_map_concat_map, map_map. f_equal. apply map_ext_in. intros x Hx. cbn [setst r_id].
  destruct (N.eqb (r_id x) (r_id r)) eqn:E; [|reflexivity]. apply N.eqb_eq in E. apply kfind_some in Hr as [Hr _].
  assert (x = r) by (apply (nodup_key_eq r_id rows); auto). subst x. cbn [setst r_st]. destruct s, (r_st r); try discriminate; reflexivity.
Qed.
Lemma crl_release cont x h rows : NoDup (map r_id rows) -> In x rows -> r_st x = ACr h ->
  Permutation (crl cont rows) ((h + cont (r_id x) + 1) :: crl cont (rput (setst x (APe h)) rows)).
Proof.
  intros Hn Hx Hs. induction rows as [|y rows IH]; [easy|]. inversion Hn as [|? ? Hy Hn']; subst. unfold kput. cbn [map]. fold (kput r_id (setst x (APe h)) rows). cbn [setst r_id].
  destruct Hx as [->|Hx].
  - rewrite N.eqb_refl. unfold crl at 1 2. cbn [flat_map setst r_st]. rewrite Hs. cbn. apply perm_skip.
    replace (kput r_id (setst x (APe h)) rows) with rows; [reflexivity|]. unfold kput. symmetry. rewrite <- (map_id rows) at 2. apply map_ext_in. intros z Hz. cbn [setst r_id].
    destruct (N.eqb (r_id z) (r_id x)) eqn:E; [|reflexivity]. apply N.eqb_eq in E. exfalso. apply Hy. rewrite <- E. now apply in_map.
  - destruct (N.eqb (r_id y) (r_id x)) eqn:E; [apply N.eqb_eq in E; exfalso; apply Hy; rewrite E; now apply in_map|].
    unfold crl in *. cbn [flat_map]. rewrite (IH Hn' Hx). symmetry. apply Permutation_middle.
Qed.
Lemma crl_agree cont cont' rows : (forall r, In r rows -> cont' (r_id r) = cont (r_id r)) -> crl cont' rows = crl cont rows.
Proof. intros H. unfold crl. rewrite !flat_map_concat_map. f_equal. apply map_ext_in. intros r Hr. rewrite (H r Hr). reflexivity. Qed.
Lemma crl_app cont l l' : crl cont (l ++ l') = crl cont l ++ crl cont l'.
Proof. unfold crl. now rewrite flat_map_app. Qed.

(** the messages are about stored tasks and jobs *)
Lemma tok_old a k : AI a -> In k (a_toks a) -> match k with KP i _ | KW i | KC i | KJ i _ => (i < a_fresh a)%N | KO _ => True end.
Proof.
  intros H Hk. destruct k as [i h|i|i|i hs|l]; auto.
  - destruct (ai_kp _ H i h Hk) as (r & A & _). apply kfind_some in A as [A <-]. apply (ai_rf _ H) in A. lia.
  - destruct (ai_kw _ H i Hk) as (r & A & _). apply kfind_some in A as [A <-]. apply (ai_rf _ H) in A. lia.
  - destruct (ai_kc _ H i Hk) as (r & A & _). apply kfind_some in A as [A <-]. apply (ai_rf _ H) in A. lia.
  - destruct (ai_kj _ H i hs Hk) as (r & A & _). apply kfind_some in A as [A <-]. apply (ai_qf _ H) in A. lia.
Qed.
Lemma lev_agree a cont jc cont' jc' l : AI a -> incl l (a_toks a) -> (forall i, (i < a_fresh a)%N -> cont' i = cont i /\ jc' i = jc i) ->
  map (lev cont' jc') l = map (lev cont jc) l.
Proof.
  intros H Hl Hag. apply map_ext_in. intros k Hk. apply Hl in Hk. apply (tok_old a k H) in Hk. destruct k as [i h|i|i|i hs|l']; cbn; auto; now rewrite ?(proj1 (Hag i Hk)), ?(proj2 (Hag i Hk)).
Qed.
Lemma AIc_agree a cont jc cont' jc' : AI a -> AIc cont jc a -> (forall i, (i < a_fresh a)%N -> cont' i = cont i /\ jc' i = jc i) -> AIc cont' jc' a.
Proof.
  intros H [A B C] Hag. split.
  - intros r Hr Hp. destruct (ai_par _ H r Hr Hp) as (p & P & _). apply kfind_some in P as [P1 P2]. apply (ai_rf _ H) in P1. rewrite P2 in P1. apply (ai_rf _ H) in Hr as Hr'.
    rewrite (proj1 (Hag _ (proj2 P1))), (proj1 (Hag _ (proj2 Hr'))). auto.
  - intros r q Hr Hp Hq. apply (ai_rf _ H) in Hr as Hr'. assert (Hj : (r_job r < a_fresh a)%N) by (apply kfind_some in Hq as [Q1 Q2]; apply (ai_qf _ H) in Q1; lia).
    rewrite (proj1 (Hag _ (proj2 Hr'))), (proj2 (Hag _ Hj)). auto.
  - intros q Hq Hp. apply (ai_qf _ H) in Hq as Hq'. destruct (C q Hq Hp) as (C1 & C2). split; [exact C1|].
    assert (Hpf : (q_par q < a_fresh a)%N) by lia. rewrite (proj1 (Hag _ Hpf)), (proj2 (Hag _ (proj2 Hq'))). exact C2.
Qed.

(** rows and jobs keep what the constraints speak of *)
Lemma AIc_keep cont jc rows jobs T T' f f' rows' jobs' : AIc cont jc (mkAbs rows jobs T f) ->
  (forall r, In r rows' -> exists r0, In r0 rows /\ r_id r0 = r_id r /\ r_par r0 = r_par r /\ r_job r0 = r_job r /\ r_pos r0 = r_pos r) ->
  (forall i q, qfind i jobs' = Some q -> exists q0, qfind i jobs = Some q0 /\ q_hs q0 = q_hs q) ->
  (forall q, In q jobs' -> exists q0, In q0 jobs /\ q_id q0 = q_id q /\ q_par q0 = q_par q) ->
  AIc cont jc (mkAbs rows' jobs' T' f').
Proof.
  intros [A B C] Hr Hj Hq. cbn in *. split; cbn.
  - intros r Hin Hp. destruct (Hr r Hin) as (r0 & R1 & R2 & R3 & R4 & R5). rewrite <- R2, <- R3. rewrite <- R3 in Hp. auto.
  - intros r q Hin Hp Hf. destruct (Hr r Hin) as (r0 & R1 & R2 & R3 & R4 & R5). destruct (Hj _ _ Hf) as (q0 & Q1 & <-). rewrite <- R2, <- R4, <- R5. rewrite <- R3 in Hp. rewrite <- R4 in Q1. eauto.
  - intros q Hin Hp. destruct (Hq q Hin) as (q0 & Q1 & <- & Q2). rewrite <- Q2 in *. auto.
Qed.
Lemma put_ids r s rows x : rfind (r_id r) rows = Some r -> In x (rput (setst r s) rows) -> exists r0, In r0 rows /\ r_id r0 = r_id x /\ r_par r0 = r_par x /\ r_job r0 = r_job x /\ r_pos r0 = r_pos x.
Proof. intros Hr Hx. apply put_cases in Hx as [->|[Hx _]]; [exists r; cbn; split; [exact (proj1 (kfind_some r_id _ _ _ Hr))|auto]|exists x; auto]. Qed.
Lemma jput_ids q p s jobs i y : qfind (q_id q) jobs = Some q -> qfind i (qput (setq q p s) jobs) = Some y -> exists q0, qfind i jobs = Some q0 /\ q_hs q0 = q_hs y.
Proof.
  intros Hq. rewrite (jput_find _ _ _ _ _ Hq). destruct (N.eqb i (q_id q)) eqn:E; [|eauto]. apply N.eqb_eq in E. subst i. intros H. injection H as <-. eauto.
Qed.
Lemma jput_ids' q p s jobs y : qfind (q_id q) jobs = Some q -> In y (qput (setq q p s) jobs) -> exists q0, In q0 jobs /\ q_id q0 = q_id y /\ q_par q0 = q_par y.
Proof. intros Hq Hy. apply jput_cases in Hy as [->|[Hy _]]; [exists q; split; [exact (proj1 (kfind_some q_id _ _ _ Hq))|auto]|exists y; auto]. Qed.

(** adding a row or a job *)
Definition upd (g : N -> nat) (f : N) (v : nat) : N -> nat := fun i => if N.ltb i f then g i else v.
Lemma upd_old g f v i : (i < f)%N -> upd g f v i = g i.
Proof. intros H. unfold upd. apply N.ltb_lt in H. now rewrite H. Qed.
Lemma upd_new g f v i : (f <= i)%N -> upd g f v i = v.
Proof. intros H. unfold upd. apply N.ltb_ge in H. now rewrite H. Qed.

Ltac fall := repeat (apply Forall_cons; [lia|]); try apply Forall_nil.
Theorem decreases a a' : astep a a' -> AI a -> forall cont jc, AIc cont jc a -> exists cont' jc', AIc cont' jc' a' /\ mplus (mu cont' jc' a') (mu cont jc a).
Proof.
  intros St HA cont jc HC. pose proof HA as HA0. destruct St; unfold mu.
  - exists cont, jc. split; [exact (AIc_keep _ _ _ _ _ _ _ _ _ _ HC (fun r H => ex_intro _ r (conj H (conj eq_refl (conj eq_refl (conj eq_refl eq_refl))))) (fun i q H => ex_intro _ q (conj H eq_refl)) (fun q H => ex_intro _ q (conj H (conj eq_refl eq_refl))))|].
    cbn. rewrite map_app, <- (app_nil_r (crl cont rows)) at 1. apply msimple; [|constructor].
    apply Forall_map. eapply Forall_impl; [|exact H]. intros k (l' & -> & Hl). exact Hl.
  - exists cont, jc. split; [exact (AIc_keep _ _ _ _ _ _ _ _ _ _ HC (fun r H => ex_intro _ r (conj H (conj eq_refl (conj eq_refl (conj eq_refl eq_refl))))) (fun i q H => ex_intro _ q (conj H eq_refl)) (fun q H => ex_intro _ q (conj H (conj eq_refl eq_refl))))|].
    cbn [a_toks a_rows]. rewrite map_app, <- (app_nil_r (crl cont rows)) at 1. apply (msimple (4 + cont i)); [|constructor].
    rewrite map_app. apply Forall_app. split; [|cbn [map lev]; fall]. apply Forall_map. eapply Forall_impl; [|exact H]. intros k (l' & -> & Hl). cbn. lia.
  - (* simple *)
    assert (Hrf := pend_rfind rows i r H). assert (Hst := pend_st rows jobs T f i h r HA H).
    exists cont, jc. split; [apply (AIc_keep _ _ _ _ _ _ _ _ _ _ HC); [intros x Hx; eapply put_ids; eassumption|eauto|eauto]|].
    cbn [a_toks a_rows]. rewrite crl_put; [|exact (ai_rn _ HA)|exact Hrf|rewrite Hst; reflexivity|destruct H1 as [[-> _]|[-> _]]; reflexivity].
    rewrite map_app, <- (app_nil_r (crl cont rows)) at 1. apply (msimple (h + cont i)); [|constructor]. destruct H1 as [[-> ->]|[-> ->]]; cbn [map lev]; fall.
  - (* fan *)
    assert (Hrf := pend_rfind rows i r H). assert (Hst := pend_st rows jobs T f i h r HA H). assert (Hin := pend_in rows i r H). assert (Hid := pend_id rows i r H).
    assert (Hif : (0 < i < f)%N) by (pose proof (ai_rf _ HA r Hin) as X; cbn [a_fresh] in X; lia).
    set (cont' := upd cont f (cont i + 1)).
    assert (Kid : forall x, In x ks -> (f <= r_id x)%N).
    { intros x Hx. apply (in_map r_id) in Hx. rewrite H2 in Hx. apply nseq_in in Hx. lia. }
    rewrite Forall_forall in H1.
    assert (Hag : forall x, (x < f)%N -> cont' x = cont x /\ jc x = jc x) by (intros; split; [now apply upd_old|reflexivity]).
    pose proof (AIc_agree _ _ _ cont' jc HA HC Hag) as [C1 C2 C3]. cbn in C1, C2, C3.
    exists cont', jc. split.
    + split; cbn.
      * intros x Hx Hp. apply in_app_iff in Hx as [Hx|Hx].
        -- destruct (put_ids _ _ _ _ Hrf Hx) as (r0 & R1 & R2 & R3 & R4 & R5). rewrite <- R2, <- R3. rewrite <- R3 in Hp. auto.
        -- destruct (H1 x Hx) as (_ & E & _). rewrite E. unfold cont'. rewrite upd_old by lia. rewrite upd_new by (now apply Kid). lia.
      * intros x q Hx Hp Hq. apply in_app_iff in Hx as [Hx|Hx]; [|destruct (H1 x Hx) as (_ & E & _); lia].
        destruct (put_ids _ _ _ _ Hrf Hx) as (r0 & R1 & R2 & R3 & R4 & R5). rewrite <- R2, <- R4, <- R5. rewrite <- R3 in Hp. rewrite <- R4 in Hq. auto.
      * exact C3.
    + cbn [a_toks a_rows]. rewrite crl_app, crl_put; [|exact (ai_rn _ HA)|exact Hrf|rewrite Hst; reflexivity|destruct H3 as [[-> _]|(k & _ & -> & _)]; reflexivity].
      rewrite (crl_agree cont cont' rows) by (intros x Hx; apply Hag; pose proof (ai_rf _ HA x Hx) as X; cbn [a_fresh] in X; lia).
      rewrite map_app. rewrite (lev_agree _ cont jc cont' jc T HA (incl_tl _ (incl_refl T)) Hag). apply (msimple (h + cont i)).
      * apply Forall_map, Forall_forall. intros k Hk. apply kidtoks_in in Hk as (x & h' & Hx & Hs & ->). destruct (H1 x Hx) as (_ & _ & h0 & Hle & E).
        assert (h0 = h') by (destruct E; congruence). subst h0. cbn. unfold cont'. rewrite upd_new by (now apply Kid). lia.
      * apply Forall_forall. intros y Hy. apply in_flat_map in Hy as (x & Hx & Hy). destruct (H1 x Hx) as (_ & _ & h0 & Hle & E).
        destruct E as [E|E]; rewrite E in Hy; [destruct Hy|]. destruct Hy as [<-|[]]. unfold cont'. rewrite upd_new by (now apply Kid). lia.
  - (* sub *)
    assert (Hrf := pend_rfind rows i r H). assert (Hst := pend_st rows jobs T f i h r HA H). assert (Hin := pend_in rows i r H). assert (Hid := pend_id rows i r H).
    assert (Hif : (0 < i < f)%N) by (pose proof (ai_rf _ HA r Hin) as X; cbn [a_fresh] in X; lia).
    set (jc' := upd jc f (cont i + 1)).
    assert (Hag : forall x, (x < f)%N -> cont x = cont x /\ jc' x = jc x) by (intros; split; [reflexivity|now apply upd_old]).
    pose proof (AIc_agree _ _ _ cont jc' HA HC Hag) as [C1 C2 C3]. cbn in C1, C2, C3.
    exists cont, jc'. split.
    + split; cbn.
      * intros x Hx Hp. destruct (put_ids _ _ _ _ Hrf Hx) as (r0 & R1 & R2 & R3 & R4 & R5). rewrite <- R2, <- R3. rewrite <- R3 in Hp. auto.
      * intros x y Hx Hp Hq. destruct (put_ids _ _ _ _ Hrf Hx) as (r0 & R1 & R2 & R3 & R4 & R5). rewrite <- R2, <- R4, <- R5. rewrite <- R3 in Hp. rewrite <- R4 in Hq.
        apply C2; [exact R1|exact Hp|]. destruct (ai_own _ HA r0 R1) as (y' & Y1 & _). cbn in Y1. rewrite kfind_app, Y1 in Hq. congruence.
      * intros y Hy Hp. apply in_app_iff in Hy as [Hy|[<-|[]]]; [auto|]. destruct H4 as [(_ & E & _)|(_ & E & _)]; [|contradiction]. rewrite E, H0. split; [lia|]. unfold jc'. rewrite upd_new by lia. lia.
    + cbn [a_toks a_rows]. rewrite crl_put; [|exact (ai_rn _ HA)|exact Hrf|rewrite Hst; reflexivity|destruct H4 as [(-> & _)|(-> & _)]; reflexivity].
      rewrite map_app. rewrite (lev_agree _ cont jc cont jc' T HA (incl_tl _ (incl_refl T)) Hag). rewrite <- (app_nil_r (crl cont rows)) at 1. apply (msimple (h + cont i)); [|constructor].
      assert (E : jc' f = cont i + 1) by (apply upd_new; lia).
      destruct H4 as [(_ & _ & ->)|(_ & _ & ->)]; cbn [map lev]; rewrite E; fall.
  - (* kid *)
    assert (Hrf := done_rfind rows i r H). assert (Hnc := done_notcr rows jobs T f i r HA H). assert (Hin := done_in rows i r H). assert (Hid := done_id rows i r H).
    destruct (finish_kid rows jobs T f i r p H H0 H1 HA) as (Hfan & Hpr' & HX). assert (Hpid := proj2 (kfind_some r_id _ _ _ Hpr')).
    exists cont, jc. split.
    + apply (AIc_keep _ _ _ _ _ _ _ _ _ _ HC); [|eauto|eauto]. intros x Hx. destruct (put_ids p _ _ _ ltac:(rewrite Hpid; exact Hpr') Hx) as (r0 & R1 & R2 & R3 & R4 & R5).
      destruct (put_ids _ _ _ _ Hrf R1) as (r1 & S1 & S2 & S3 & S4 & S5). exists r1. split; [exact S1|]. repeat split; congruence.
    + cbn [a_toks a_rows]. rewrite crl_put; [|exact (ax_rn _ _ HX)|rewrite Hpid; exact Hpr'|rewrite H2; reflexivity|reflexivity].
      rewrite crl_put; [|exact (ai_rn _ HA)|exact Hrf|exact Hnc|reflexivity].
      rewrite map_app, <- (app_nil_r (crl cont rows)) at 1. apply (msimple (3 + cont i)); [|constructor].
      pose proof (ac_par _ _ _ HC r Hin H0) as L. rewrite Hid in L. destruct (n <=? c + 1)%Z; cbn [map lev]; fall.
  - (* item *)
    assert (Hrf := done_rfind rows i r H). assert (Hnc := done_notcr rows jobs T f i r HA H). assert (Hin := done_in rows i r H). assert (Hid := done_id rows i r H).
    destruct (finish_kid rows jobs T f i r p H H0 H1 HA) as (Hfan & Hpr' & HX). assert (Hpid := proj2 (kfind_some r_id _ _ _ Hpr')).
    exists cont, jc. split.
    + apply (AIc_keep _ _ _ _ _ _ _ _ _ _ HC); [|eauto|eauto]. intros x Hx. destruct (put_ids p _ _ _ ltac:(rewrite Hpid; exact Hpr') Hx) as (r0 & R1 & R2 & R3 & R4 & R5).
      destruct (put_ids _ _ _ _ Hrf R1) as (r1 & S1 & S2 & S3 & S4 & S5). exists r1. split; [exact S1|]. repeat split; congruence.
    + cbn [a_toks a_rows]. rewrite crl_put; [|exact (ax_rn _ _ HX)|rewrite Hpid; exact Hpr'|rewrite H2; reflexivity|reflexivity].
      rewrite crl_put; [|exact (ai_rn _ HA)|exact Hrf|exact Hnc|reflexivity].
      rewrite map_app, <- (app_nil_r (crl cont rows)) at 1. apply (msimple (3 + cont i)); [|constructor].
      pose proof (ac_par _ _ _ HC r Hin H0) as L. rewrite Hid in L. destruct (n <=? c + 1)%Z; cbn [map lev]; fall.
  - (* release *)
    assert (Hrf := done_rfind rows i r H). assert (Hnc := done_notcr rows jobs T f i r HA H). assert (Hin := done_in rows i r H). assert (Hid := done_id rows i r H).
    destruct (finish_kid rows jobs T f i r p H H0 H1 HA) as (Hfan & Hpr' & HX). assert (Hpid := proj2 (kfind_some r_id _ _ _ Hpr')).
    assert (Hxi : r_id x <> r_id r).
    { intros E. assert (x = r) by (apply (nodup_key_eq r_id rows); [exact (ai_rn _ HA)|exact H4|exact Hin|exact E]). subst x. rewrite H6 in Hnc. discriminate. }
    assert (Hx' : In x (rput (setst r AFi) rows)) by (now apply put_keep).
    destruct (release_kid _ _ _ _ _ _ x h HX Hpr' Hfan Hx' H5 H6 H0) as (Hpr'' & HX').
    assert (Hn' := ax_rn _ _ HX). cbn [a_rows] in Hn'. assert (Hxf := kfind_in r_id _ x Hn' Hx').
    exists cont, jc. split.
    + apply (AIc_keep _ _ _ _ _ _ _ _ _ _ HC); [|eauto|eauto]. intros y Hy. destruct (put_ids p _ _ _ ltac:(rewrite Hpid; exact Hpr'') Hy) as (r0 & R1 & R2 & R3 & R4 & R5).
      destruct (put_ids _ _ _ _ Hxf R1) as (r1 & S1 & S2 & S3 & S4 & S5). destruct (put_ids _ _ _ _ Hrf S1) as (r2 & T1 & T2 & T3 & T4 & T5). exists r2. split; [exact T1|]. repeat split; congruence.
    + cbn [a_toks a_rows]. rewrite crl_put; [|exact (ax_rn _ _ HX')|rewrite Hpid; exact Hpr''|rewrite H2; reflexivity|reflexivity].
      rewrite <- (crl_put cont r AFi rows (ai_rn _ HA) Hrf Hnc eq_refl). cbn [map app lev].
      set (C := crl cont (rput (setst x (APe h)) (rput (setst r AFi) rows))). set (M := map (lev cont jc) T).
      eapply mplus_perm; [reflexivity| |].
      * apply perm_skip. apply Permutation_app_head. symmetry. apply (crl_release cont x h _ Hn' Hx' H6).
      * fold C. eapply mpS; [apply mp1; apply (mless_intro (h + cont (r_id x) + 1) (M ++ C) [h + cont (r_id x)]); fall|].
        cbn [app]. eapply mless_perm; [reflexivity| |apply (mless_intro (3 + cont i) (M ++ (h + cont (r_id x) + 1) :: C) []); constructor].
        cbn. apply Permutation_sym, Permutation_middle.
  - (* next *)
    assert (Hrf := done_rfind rows i r H). assert (Hnc := done_notcr rows jobs T f i r HA H). assert (Hin := done_in rows i r H). assert (Hid := done_id rows i r H).
    assert (Hqf : qfind (q_id q) jobs = Some q) by (now rewrite (proj2 (kfind_some q_id _ _ _ H1))).
    destruct (ai_top _ HA r Hin H0) as (_ & Top). destruct (Top (done_notfin rows jobs T f i r HA H)) as (q0 & Q1 & Q2 & Q3 & Q4). cbn in Q1. rewrite H1 in Q1. injection Q1 as <-.
    set (v := jc (r_job r) + sumn (skipn (Z.to_nat (q_pos q + 1)) (q_hs q))). set (cont' := upd cont f v).
    assert (Hag : forall x, (x < f)%N -> cont' x = cont x /\ jc x = jc x) by (intros; split; [now apply upd_old|reflexivity]).
    pose proof (AIc_agree _ _ _ cont' jc HA HC Hag) as [C1 C2 C3]. cbn in C1, C2, C3.
    assert (Ev : h + v = jc (r_job r) + sumn (skipn (Z.to_nat (q_pos q)) (q_hs q))).
    { unfold v. replace (Z.to_nat (q_pos q + 1)) with (S (Z.to_nat (q_pos q))) by lia. clear -H2. revert H2. generalize (Z.to_nat (q_pos q)) as n. generalize (q_hs q) as l.
      intros l n. revert n. induction l as [|y l IH]; intros [|n] E; cbn in E; try discriminate; [injection E as ->; cbn; lia|]. specialize (IH n E). cbn [skipn]. exact IH. }
    pose proof (ac_top _ _ _ HC r q Hin H0 H1) as L. rewrite Q3, Hid in L.
    exists cont', jc. split.
    + split; cbn.
      * intros x Hx Hp. apply in_app_iff in Hx as [Hx|[<-|[]]]; [|contradiction Hp; reflexivity].
        destruct (put_ids _ _ _ _ Hrf Hx) as (r0 & R1 & R2 & R3 & R4 & R5). rewrite <- R2, <- R3. rewrite <- R3 in Hp. auto.
      * intros x y Hx Hp Hq. destruct (jput_ids _ _ _ _ _ _ Hqf Hq) as (y0 & Y1 & <-). apply in_app_iff in Hx as [Hx|[<-|[]]].
        -- destruct (put_ids _ _ _ _ Hrf Hx) as (r0 & R1 & R2 & R3 & R4 & R5). rewrite <- R2, <- R4, <- R5. rewrite <- R3 in Hp. rewrite <- R4 in Y1. auto.
        -- cbn in Y1 |- *. rewrite H1 in Y1. injection Y1 as <-. unfold cont'. rewrite upd_new by lia. unfold v. lia.
      * intros y Hy Hp. destruct (jput_ids' _ _ _ _ _ Hqf Hy) as (y0 & Y1 & <- & Y2). rewrite <- Y2 in *. auto.
    + cbn [a_toks a_rows]. rewrite crl_app, crl_put; [|exact (ai_rn _ HA)|exact Hrf|exact Hnc|reflexivity].
      rewrite (crl_agree cont cont' rows) by (intros x Hx; apply Hag; pose proof (ai_rf _ HA x Hx) as X; cbn [a_fresh] in X; lia).
      rewrite map_app, (lev_agree _ cont jc cont' jc T HA (incl_tl _ (incl_refl T)) Hag). apply (msimple (3 + cont i)); [|constructor].
      cbn [map lev]. unfold cont'. rewrite upd_new by lia. fall.
  - (* end *)
    assert (Hrf := done_rfind rows i r H). assert (Hnc := done_notcr rows jobs T f i r HA H). assert (Hin := done_in rows i r H). assert (Hid := done_id rows i r H).
    assert (Hqi := proj2 (kfind_some q_id _ _ _ H1)). assert (Hqin := proj1 (kfind_some q_id _ _ _ H1)). assert (Hqf : qfind (q_id q) jobs = Some q) by (now rewrite Hqi).
    pose proof (ac_top _ _ _ HC r q Hin H0 H1) as L. rewrite Hid in L.
    exists cont, jc. split.
    + apply (AIc_keep _ _ _ _ _ _ _ _ _ _ HC); [intros x Hx; eapply put_ids; eassumption|intros x y; eapply jput_ids; eassumption|intros x; eapply jput_ids'; eassumption].
    + cbn [a_toks a_rows]. rewrite crl_put; [|exact (ai_rn _ HA)|exact Hrf|exact Hnc|reflexivity].
      rewrite map_app, <- (app_nil_r (crl cont rows)) at 1. apply (msimple (3 + cont i)); [|constructor]. destruct (N.eqb (q_par q) 0) eqn:E; cbn [map lev]; [fall|].
      apply N.eqb_neq in E. destruct (ac_sub _ _ _ HC q Hqin E) as (_ & L'). rewrite Hqi in L'. fall.
  - (* start *)
    assert (Hqi := proj2 (kfind_some q_id _ _ _ H)). assert (Hqin := proj1 (kfind_some q_id _ _ _ H)). assert (Hqf : qfind (q_id q) jobs = Some q) by (now rewrite Hqi).
    set (v := jc i + sumn hs). set (cont' := upd cont f v).
    assert (Hag : forall x, (x < f)%N -> cont' x = cont x /\ jc x = jc x) by (intros; split; [now apply upd_old|reflexivity]).
    pose proof (AIc_agree _ _ _ cont' jc HA HC Hag) as [C1 C2 C3]. cbn in C1, C2, C3.
    exists cont', jc. split.
    + split; cbn.
      * intros x Hx Hp. apply in_app_iff in Hx as [Hx|[<-|[]]]; [|contradiction Hp; reflexivity]. auto.
      * intros x y Hx Hp Hq. destruct (jput_ids _ _ _ _ _ _ Hqf Hq) as (y0 & Y1 & <-). apply in_app_iff in Hx as [Hx|[<-|[]]]; [auto|].
        cbn [r_job r_pos r_id] in Y1 |- *. rewrite H in Y1. injection Y1 as <-. unfold cont'. rewrite upd_new by lia. unfold v. rewrite H0. change (Z.to_nat 1) with 1. cbn [skipn]. lia.
      * intros y Hy Hp. destruct (jput_ids' _ _ _ _ _ Hqf Hy) as (y0 & Y1 & <- & Y2). rewrite <- Y2 in *. auto.
    + cbn [a_toks a_rows]. rewrite crl_app. rewrite (crl_agree cont cont' rows) by (intros x Hx; apply Hag; pose proof (ai_rf _ HA x Hx) as X; cbn [a_fresh] in X; lia).
      rewrite map_app, (lev_agree _ cont jc cont' jc T HA (incl_tl _ (incl_refl T)) Hag). apply (msimple (1 + sumn (h :: hs) + jc i)); [|constructor].
      cbn [map lev]. unfold cont'. rewrite upd_new by lia. unfold v. cbn [sumn fold_right]. fold (sumn hs). fall.
Qed.
End Levels.

(** ** With nothing in flight everything is finished *)
Lemma two_counts (f g k : arow -> bool) l : (forall x, In x l -> f x = true -> k x = true) -> (forall x, In x l -> g x = true -> k x = true) ->
  (forall x, In x l -> f x = true -> g x = true -> False) -> (cnt f l + cnt g l < cnt k l)%nat -> exists x, In x l /\ k x = true /\ f x = false /\ g x = false.
Proof.
  intros Hf Hg Hfg H. assert (E : cnt (fun x => f x || g x)%bool l = (cnt f l + cnt g l)%nat).
  { clear H. induction l as [|x l IH]; [reflexivity|]. rewrite !cnt_cons, IH; [|intros; apply Hf; auto; now right|intros; apply Hg; auto; now right|intros; eapply Hfg; eauto; now right].
    specialize (Hfg x (or_introl eq_refl)). destruct (f x), (g x); cbn; lia. }
  rewrite <- E in H. apply cnt_lt_ex in H as (x & A & B & C). apply orb_false_iff in C as [C D]. exists x. auto.
Qed.
Lemma quiet_rows a : AI a -> a_toks a = [] -> forall n r, In r (a_rows a) -> (N.to_nat (a_fresh a) - N.to_nat (r_id r) <= n)%nat -> r_st r = AFi \/ iscr (r_st r) = true.
Proof.
  intros H HT. induction n as [|n IH]; intros r Hr Hn; [apply (ai_rf _ H) in Hr; lia|].
  pose proof (ai_live _ H r Hr) as L. pose proof (ai_cnt _ H r Hr) as C. unfold lively, counted in *. rewrite HT in L.
  assert (Fan : isfan (r_st r) = true -> finkids (r_id r) (a_rows a) + crkids (r_id r) (a_rows a) < kids (r_id r) (a_rows a) -> False).
  { intros Hf Hlt. unfold finkids, crkids, kids in Hlt.
    destruct (two_counts (fun x => kid (r_id r) x && isfin (r_st x))%bool (fun x => kid (r_id r) x && iscr (r_st x))%bool (kid (r_id r)) (a_rows a)) as (x & X1 & X2 & X3 & X4).
    - intros x _ E. now apply andb_true_iff in E.
    - intros x _ E. now apply andb_true_iff in E.
    - intros x _ E E'. apply andb_true_iff in E as [_ E]. apply andb_true_iff in E' as [_ E']. destruct (r_st x); discriminate.
    - lia.
    - rewrite X2 in X3, X4. cbn in X3, X4. unfold kid in X2. apply N.eqb_eq in X2. assert (Hp : r_par x <> 0%N) by (apply (ai_rf _ H) in Hr; lia).
      destruct (ai_par _ H x X1 Hp) as (p & _ & _ & P & _). destruct (IH x X1) as [E|E]; [rewrite X2 in P; apply (ai_rf _ H) in X1; apply (ai_rf _ H) in Hr; lia|rewrite E in X3; discriminate|congruence]. }
  destruct (r_st r) as [h|h| | | | |m c|m c k ix|s|] eqn:Es; try (left; reflexivity); try (right; reflexivity); try (exfalso; exact L).
  - exfalso. destruct L as [L|L]; exact L.
  - destruct L as [L|[]]. exfalso. apply Fan; [reflexivity|lia].
  - destruct L as [L|[]]. exfalso. apply Fan; [reflexivity|]. destruct C as (C1 & C2 & C3 & C4 & C5 & C6). rewrite C4, C5, C6. destruct (k =? 0) eqn:E; lia.
  - exfalso. destruct L as (q & Q1 & Q2 & Q3 & [Q4|[]]). apply kfind_some in Q1 as [Q1 Q1']. pose proof (ai_job _ H q Q1) as J. destruct (q_st q); auto.
    + rewrite HT in J. destruct J as [[] _].
    + destruct J as (x & X1 & X2 & X3 & X4). destruct (ai_own _ H x X1) as (_ & _ & _ & X5). destruct (ai_top _ H x X1 X3) as (X6 & _).
      destruct (IH x X1) as [E|E]; [apply (ai_rf _ H) in X1; apply (ai_rf _ H) in Hr; lia|congruence|congruence].
Qed.
Theorem quiet a : AI a -> a_toks a = [] -> (forall r, In r (a_rows a) -> r_st r = AFi) /\ (forall q, In q (a_jobs a) -> q_st q = QCo).
Proof.
  intros H HT. assert (R : forall r, In r (a_rows a) -> r_st r = AFi).
  { intros r Hr. destruct (quiet_rows a H HT _ r Hr (le_n _)) as [E|E]; [exact E|]. destruct (N.eq_dec (r_par r) 0) as [Hp|Hp].
    - destruct (ai_top _ H r Hr Hp) as (C & _). congruence.
    - destruct (ai_par _ H r Hr Hp) as (p & P1 & _ & _ & P2). apply kfind_some in P1 as [P1 _]. destruct P2 as [P2|[_ P2]]; [|exact P2].
      destruct (quiet_rows a H HT _ p P1 (le_n _)) as [E'|E']; destruct (r_st p); discriminate. }
  split; [exact R|]. intros q Hq. pose proof (ai_job _ H q Hq) as J. destruct (q_st q); auto.
  - rewrite HT in J. destruct J as [[] _].
  - destruct J as (x & X1 & _ & _ & X4). contradiction (X4 (R x X1)).
  - destruct J.
Qed.

(** ** Steps of the messages in any order, several at once *)
Definition aeq (a a' : abs) : Prop := a_rows a = a_rows a' /\ a_jobs a = a_jobs a' /\ a_fresh a = a_fresh a' /\ Permutation (a_toks a) (a_toks a').
Inductive asteps : abs -> abs -> Prop :=
| as_one a b c d : aeq a b -> astep b c -> aeq c d -> asteps a d
| as_more a b c : asteps a b -> asteps b c -> asteps a c.
Lemma aeq_AI a a' : aeq a a' -> AI a -> AI a'.
Proof. destruct a, a'. intros (E1 & E2 & E3 & P) H. cbn in *. subst. exact (AI_perm _ _ _ _ _ P H). Qed.
Lemma aeq_AIc a a' cont jc : aeq a a' -> AIc cont jc a -> AIc cont jc a'.
Proof. destruct a, a'. intros (E1 & E2 & E3 & P) [A B C]. cbn in *. subst. split; cbn; assumption. Qed.
Lemma aeq_mu a a' cont jc : aeq a a' -> Permutation (mu cont jc a) (mu cont jc a').
Proof. destruct a, a'. intros (E1 & E2 & E3 & P). unfold mu. cbn in *. subst. apply Permutation_app_tail. now apply Permutation_map. Qed.
Lemma aeq_refl a : aeq a a. Proof. repeat split. reflexivity. Qed.
Lemma aeq_trans a b c : aeq a b -> aeq b c -> aeq a c.
Proof. intros (A1 & A2 & A3 & A4) (B1 & B2 & B3 & B4). split; [congruence|]. split; [congruence|]. split; [congruence|]. eapply Permutation_trans; eassumption. Qed.
(** jobs stay *)
Lemma asteps_jobs a a' : asteps a a' -> forall i, In i (map q_id (a_jobs a)) -> In i (map q_id (a_jobs a')).
Proof.
  induction 1 as [a b c d E1 S E2|a b c _ IH1 _ IH2]; [|auto]. intros i. destruct E1 as (_ & -> & _), E2 as (_ & <- & _).
  destruct S; cbn [a_jobs]; auto; rewrite ?kput_keys; auto. rewrite map_app. intros H'. apply in_or_app. left. exact H'.
Qed.
Lemma asteps_AI a a' : asteps a a' -> AI a -> AI a'.
Proof. induction 1 as [a b c d E1 S E2|a b c _ IH1 _ IH2]; [|auto]. intros H. apply (aeq_AI c d E2). apply (pres b c S). exact (aeq_AI a b E1 H). Qed.
Lemma asteps_dec a a' : asteps a a' -> AI a -> forall cont jc, AIc cont jc a -> exists cont' jc', AIc cont' jc' a' /\ mplus (mu cont' jc' a') (mu cont jc a).
Proof.
  induction 1 as [a b c d E1 S E2|a b c S1 IH1 S2 IH2]; intros H cont jc HC.
  - destruct (decreases b c S (aeq_AI a b E1 H) cont jc (aeq_AIc a b _ _ E1 HC)) as (cont' & jc' & HC' & M). exists cont', jc'. split; [exact (aeq_AIc c d _ _ E2 HC')|].
    eapply mplus_perm; [exact (aeq_mu c d cont' jc' E2)|symmetry; exact (aeq_mu a b cont jc E1)|exact M].
  - destruct (IH1 H cont jc HC) as (c1 & j1 & HC1 & M1). destruct (IH2 (asteps_AI a b S1 H) c1 j1 HC1) as (c2 & j2 & HC2 & M2). exists c2, j2. split; [exact HC2|].
    eapply mplus_trans; eassumption.
Qed.
Lemma asteps_Acc : forall a, AI a -> (exists cont jc, AIc cont jc a) -> Acc (fun y x => AI x /\ asteps x y) a.
Proof.
  assert (G : forall m a, AI a -> forall cont jc, AIc cont jc a -> mu cont jc a = m -> Acc (fun y x => AI x /\ asteps x y) a).
  { intros m. induction (mplus_wf m) as [m _ IH]. intros a H cont jc HC E. constructor. intros y (_ & S). destruct (asteps_dec a y S H cont jc HC) as (cont' & jc' & HC' & M).
    rewrite E in M. exact (IH _ M y (asteps_AI a y S H) cont' jc' HC' eq_refl). }
  intros a H (cont & jc & HC). exact (G _ a H cont jc HC eq_refl).
Qed.

(** ** A new job *)
Lemma AI_submit rows jobs T f q : AI (mkAbs rows jobs T f) -> (0 < f)%N -> q_id q = f -> q_st q = QPe -> q_par q = 0%N -> q_hs q <> [] ->
  AI (mkAbs rows (jobs ++ [q]) (KJ f (q_hs q) :: T) (N.succ f)).
Proof.
  intros HA H0 Hqi Hqs Hqp Hqh. revert HA. ainv.
  assert (qkeep : forall x y, qfind x jobs = Some y -> qfind x (jobs ++ [q]) = Some y) by (intros x y E; rewrite kfind_app, E; reflexivity).
  assert (Hqn : qfind f jobs = None). { apply kfind_none. intros C. apply in_map_iff in C as (y & E & Hy). apply qf in Hy. lia. }
  assert (qnew : qfind f (jobs ++ [q]) = Some q). { rewrite kfind_app, Hqn. unfold kfind. cbn. rewrite Hqi, N.eqb_refl. reflexivity. }
  assert (KJf : forall x hs, In (KJ x hs) T -> (x < f)%N).
  { intros x hs Hx. destruct (kj x hs Hx) as (y & A & _). apply kfind_some in A as [A <-]. apply qf in A. lia. }
  agoal; auto.
  - rewrite map_app. apply NoDup_app_disj; [exact qn|repeat constructor; easy|]. intros x A [<-|[]]. apply in_map_iff in A as (y & E & A). apply qf in A. lia.
  - intros x Hx. apply rf in Hx. lia.
  - intros x Hx. apply in_app_iff in Hx as [Hx|[<-|[]]]; [apply qf in Hx; lia|lia].
  - cbn. constructor; [|exact jn]. intros C. apply in_flat_map in C as (y & A & B). destruct y; cbn in B; try destruct B as [B|[]]; try destruct B. subst. apply KJf in A. lia.
  - intros x h [E|Hx]; [discriminate|auto].
  - intros x [E|Hx]; [discriminate|auto].
  - intros x [E|Hx]; [discriminate|]. destruct (kc x Hx) as (y & A & B). exists y. split; [exact A|]. destruct (r_st y); cbn in *; auto. destruct B as (z & B1 & B2). eauto.
  - intros x hs [E|Hx]; [injection E as <- <-; exists q; auto|]. destruct (kj x hs Hx) as (y & A & B). exists y. auto.
  - intros x Hx Hp. destruct (top x Hx Hp) as (A & B). split; [exact A|]. intros Hn. destruct (B Hn) as (y & Y1 & Y2). exists y. auto.
  - intros x Hx. eapply lively_frame; [apply live; exact Hx| |].
    + intros k Hk _. now right.
    + intros s' y _ E. exists y. split; [auto|]. split; [reflexivity|]. intros; now left.
  - intros x Hx. destruct (own x Hx) as (y & Y1 & Y2). exists y. auto.
  - intros y Hy. apply in_app_iff in Hy as [Hy|[<-|[]]].
    + specialize (job y Hy). destruct (q_st y); auto. destruct job as [A B]. split; [now right|exact B].
    + rewrite Hqs, Hqi. split; [now left|exact Hqh].
  - intros y Hy Hp Hc. apply in_app_iff in Hy as [Hy|[<-|[]]]; [auto|contradiction].
Qed.
Lemma AIc_submit rows jobs T f q cont jc : AI (mkAbs rows jobs T f) -> AIc cont jc (mkAbs rows jobs T f) -> q_id q = f -> q_par q = 0%N ->
  AIc cont jc (mkAbs rows (jobs ++ [q]) (KJ f (q_hs q) :: T) (N.succ f)).
Proof.
  intros HA [A B C] Hqi Hqp. split; cbn in *; auto.
  - intros r y Hr Hp Hq. destruct (ai_own _ HA r Hr) as (z & Z1 & _). cbn in Z1. rewrite kfind_app, Z1 in Hq. injection Hq as <-. auto.
  - intros y Hy Hp. apply in_app_iff in Hy as [Hy|[<-|[]]]; [auto|contradiction].
Qed.
