(** C44: the expiring cache (internal/cache/cache.go), used by the webhook middleware. *)
From Coq Require Import String List ZArith Bool Lia.
Import ListNotations.
Open Scope list_scope.
Open Scope Z_scope.

(* ------------------------------------------------------------------ *)
(** * Model *)
Section Cache.
Context {V : Type}.

(** cache.go:12-16 [Item]; [Expiration] is in nanoseconds since the epoch, 0 = never.
    Simplification: int64 overflow of [now+d] is not modelled.  The per-item and
    map mutexes make every operation below atomic up to its final section; each
    operation is one step here. *)
Record item := mkItem { it_object : V; it_exp : Z }.
Definition items := list (string * item).

(** Go map operations [items[k]], [items[k] = v], [delete(items, k)] *)
Fixpoint lookup (k : string) (m : items) : option item :=
  match m with [] => None | (k', x) :: m' => if String.eqb k k' then Some x else lookup k m' end.
Definition del (k : string) (m : items) : items := filter (fun p => negb (String.eqb k (fst p))) m.
Definition put (k : string) (x : item) (m : items) : items := (k, x) :: del k m.

Variable de : Z.   (* cache.go:28 the default expiration, after newCache's 0 -> -1 (cache.go:284-287) *)

(** cache.go:40-47, 57-63, 81-87: the deadline of an entry written at [now] with duration [d] *)
Definition deadline (now d : Z) : Z :=
  let d' := if d =? 0 then de else d in if d' >? 0 then now + d' else 0.
(** cache.go:138-142, 186: the entry is expired *)
Definition expired (now : Z) (x : item) : bool := (it_exp x >? 0) && (now >? it_exp x).

Inductive op :=
| OSet (k : string) (v : V) (d : Z)            (* SetWithExpiration; Set k v = OSet k v 0 *)
| OSetExp (k : string) (d : Z)                 (* SetExpiration *)
| OModify (k : string) (f : V -> option V)     (* Modify; None = the callback fails *)
| ODelete (k : string)                         (* Delete *)
| OFlush                                       (* Flush *)
| OSweep.                                      (* the janitor: deleteExpired *)

(** one operation at time [now]: new items, success, evicted entries handed to onEvicted *)
Definition step (now : Z) (o : op) (m : items) : items * bool * list (string * V) :=
  match o with
  | OSet k v d => (put k (mkItem v (deadline now d)) m, true, [])           (* cache.go:38-54, 79-95 *)
  | OSetExp k d =>                                                          (* cache.go:56-77 *)
      match lookup k m with
      | None => (m, false, [])
      | Some x => (put k (mkItem (it_object x) (deadline now d)) m, true, [])
      end
  | OModify k f =>                                                          (* cache.go:103-122 *)
      match lookup k m with
      | None => (m, false, [])
      | Some x => match f (it_object x) with
                  | None => (m, false, [])
                  | Some v => (put k (mkItem v (it_exp x)) m, true, [])
                  end
      end
  | ODelete k =>                                                            (* cache.go:146-163 *)
      (del k m, true, match lookup k m with Some x => [(k, it_object x)] | None => [] end)
  | OFlush => ([], true, [])                                                (* cache.go:262-266 *)
  | OSweep =>                                                               (* cache.go:171-190 *)
      (filter (fun p => negb (expired now (snd p))) m, true,
       map (fun p => (fst p, it_object (snd p))) (filter (fun p => expired now (snd p)) m))
  end.

(** cache.go:126-144 [Get] *)
Definition get (now : Z) (k : string) (m : items) : option V :=
  match lookup k m with
  | None => None
  | Some x => if expired now x then None else Some (it_object x)
  end.
(** cache.go:201-216 allItems, 218-231 List (without filters), 233-240 Iterate *)
Definition list_items (now : Z) (m : items) : list (string * V) :=
  map (fun p => (fst p, it_object (snd p))) (filter (fun p => negb (expired now (snd p))) m).

(** a history of operations with the time each was performed *)
Definition hist := list (Z * op).
Definition run_hist (h : hist) : items := fold_left (fun m x => fst (fst (step (fst x) (snd x) m))) h [].

(* ------------------------------------------------------------------ *)
(** * Specification *)
(** operations happen in clock order, no later than [now], and the clock is positive *)
Fixpoint chronological (from : Z) (h : hist) (now : Z) : Prop :=
  match h with
  | [] => from <= now
  | (t, _) :: h' => from <= t /\ chronological t h' now
  end.
(** [d] is the requested lifetime, 0 = the cache's default; a value with a lifetime
    <= 0 never expires.  Written at [t], it is alive at [now] iff: *)
Definition lifetime (d : Z) : Z := if d =? 0 then de else d.
Definition alive (t d now : Z) : Prop := lifetime d <= 0 \/ now <= t + lifetime d.
(** the operations that end the life of an earlier write to [k] *)
Definition overrides (k : string) (o : op) : Prop :=
  match o with OSet k' _ _ => k' = k | ODelete k' => k' = k | OFlush => True | _ => False end.
(** in-place changes of an entry *)
Definition tweaks (k : string) (o : op) : Prop :=
  match o with OSetExp k' _ => k' = k | OModify k' _ => k' = k | _ => False end.

(* ------------------------------------------------------------------ *)
(** * Proofs *)
Lemma lookup_del k k' m : lookup k (del k' m) = if String.eqb k k' then None else lookup k m.
Proof.
  induction m as [|[a x] m IH]; cbn; [now destruct (String.eqb k k')|].
  destruct (String.eqb_spec k' a) as [<-|Ha]; cbn; fold (del k' m).
  - rewrite IH. destruct (String.eqb_spec k k'); reflexivity.
  - rewrite IH. destruct (String.eqb_spec k a) as [<-|]; [|reflexivity]. destruct (String.eqb_spec k k'); congruence.
Qed.
Lemma lookup_put k k' x m : lookup k (put k' x m) = if String.eqb k k' then Some x else lookup k m.
Proof. cbn. destruct (String.eqb k k') eqn:E; [reflexivity|]. rewrite lookup_del, E. reflexivity. Qed.

Definition uniq (m : items) : Prop := NoDup (map fst m).
Lemma del_incl k m : incl (map fst (del k m)) (map fst m).
Proof. intros a H. apply in_map_iff in H as ([b x] & <- & H). apply filter_In in H as [H _]. now apply (in_map fst) in H. Qed.
Lemma filter_uniq f (m : items) : uniq m -> uniq (filter f m).
Proof.
  unfold uniq. induction m as [|[a x] m IH]; cbn; [auto|]. inversion 1; subst. destruct (f (a, x)); cbn; [|auto].
  constructor; [|auto]. intros Hin. apply H2. apply in_map_iff in Hin as ([b y] & <- & Hb). apply filter_In in Hb as [Hb _]. now apply (in_map fst) in Hb.
Qed.
Lemma put_uniq k x m : uniq m -> uniq (put k x m).
Proof.
  intros H. unfold uniq, put. cbn. constructor; [|now apply filter_uniq].
  intros Hin. apply in_map_iff in Hin as ([b y] & Hb & Hy). cbn in Hb. subst b. apply filter_In in Hy as [_ Hy]. cbn in Hy. now rewrite String.eqb_refl in Hy.
Qed.
Lemma step_uniq now o m : uniq m -> uniq (fst (fst (step now o m))).
Proof.
  intros H. destruct o; cbn; try (now apply put_uniq); try (now apply filter_uniq); try constructor.
  - destruct (lookup k m); cbn; [now apply put_uniq|exact H].
  - destruct (lookup k m) as [x|]; cbn; [|exact H]. destruct (f (it_object x)); cbn; [now apply put_uniq|exact H].
Qed.
Lemma lookup_in k x m : uniq m -> lookup k m = Some x <-> In (k, x) m.
Proof.
  intros Hu. induction m as [|[a y] m IH]; cbn; [split; [discriminate|tauto]|]. inversion Hu; subst.
  destruct (String.eqb_spec k a) as [<-|Hn].
  - split; [intros E; left; congruence|]. intros [E|E]; [congruence|]. apply (in_map fst) in E. contradiction.
  - rewrite IH by assumption. split; [auto|]. intros [E|E]; [congruence|exact E].
Qed.
Lemma lookup_filter k f m : uniq m -> lookup k (filter f m) = match lookup k m with Some x => if f (k, x) then Some x else None | None => None end.
Proof.
  intros Hu. destruct (lookup k m) as [x|] eqn:E.
  - apply lookup_in in E; [|exact Hu]. destruct (f (k, x)) eqn:Ef.
    + apply lookup_in; [now apply filter_uniq|]. apply filter_In. auto.
    + destruct (lookup k (filter f m)) as [y|] eqn:Ey; [|reflexivity]. apply lookup_in in Ey; [|now apply filter_uniq].
      apply filter_In in Ey as [Ey Hy]. apply lookup_in in E; [|exact Hu]. apply lookup_in in Ey; [|exact Hu]. congruence.
  - destruct (lookup k (filter f m)) as [y|] eqn:Ey; [|reflexivity]. apply lookup_in in Ey; [|now apply filter_uniq].
    apply filter_In in Ey as [Ey _]. apply lookup_in in Ey; [|exact Hu]. congruence.
Qed.

Lemma run_uniq h : uniq (run_hist h).
Proof.
  unfold run_hist. assert (G : forall m, uniq m -> uniq (fold_left (fun m x => fst (fst (step (fst x) (snd x) m))) h m)).
  { induction h as [|x h IH]; cbn; [auto|]. intros m Hm. apply IH. now apply step_uniq. }
  apply G. constructor.
Qed.
Lemma run_snoc h x : run_hist (h ++ [x]) = fst (fst (step (fst x) (snd x) (run_hist h))).
Proof. unfold run_hist. now rewrite fold_left_app. Qed.

Lemma expired_iff t v d now : 0 < t -> t <= now -> expired now (mkItem v (deadline t d)) = false <-> alive t d now.
Proof.
  intros Ht Hn. unfold expired, deadline, alive, lifetime. cbn. set (d' := if d =? 0 then de else d).
  destruct (Z.gtb_spec d' 0) as [H|H]; cbn.
  - destruct (Z.gtb_spec (t + d') 0); cbn; [|split; [lia|]; intros; exfalso; lia].
    destruct (Z.gtb_spec now (t + d')); split; intros; try discriminate; try reflexivity; lia.
  - split; [intros _; left; lia|reflexivity].
Qed.

Lemma chrono_snoc from h x now : chronological from (h ++ [x]) now <-> chronological from h (fst x) /\ fst x <= now.
Proof.
  revert from. induction h as [|[t o] h IH]; intros from; cbn; [destruct x; cbn; tauto|]. rewrite IH. tauto.
Qed.
Lemma chrono_le from h now : chronological from h now -> from <= now.
Proof. revert from. induction h as [|[t o] h IH]; intros from; cbn; [auto|]. intros [H1 H2]. apply IH in H2. lia. Qed.
Lemma chrono_split from h1 t o h2 now : chronological from (h1 ++ (t, o) :: h2) now -> from <= t <= now.
Proof.
  revert from. induction h1 as [|[t' o'] h1 IH]; intros from; cbn.
  - intros [H1 H2]. apply chrono_le in H2. lia.
  - intros [H1 H2]. apply IH in H2. lia.
Qed.

(** what the store holds for [k]: the last write, unless a sweep at or before [now] found it expired *)
Lemma held h k : forall now, chronological 1 h now -> (forall t o, In (t, o) h -> ~ tweaks k o) ->
  match lookup k (run_hist h) with
  | Some x => exists h1 t v d h2, h = h1 ++ (t, OSet k v d) :: h2 /\ (forall t' o, In (t', o) h2 -> ~ overrides k o) /\ x = mkItem v (deadline t d)
  | None => (forall h1 t v d h2, h = h1 ++ (t, OSet k v d) :: h2 -> (forall t' o, In (t', o) h2 -> ~ overrides k o) -> ~ alive t d now)
  end.
Proof.
  induction h as [|[t o] h IH] using rev_ind; intros now Hc Ht.
  - cbn. intros h1 t v d h2 E. destruct h1; discriminate.
  - apply chrono_snoc in Hc as [Hc Hn]. cbn in Hn.
    assert (Ht' : forall t o, In (t, o) h -> ~ tweaks k o) by (intros; eapply Ht; apply in_or_app; eauto).
    assert (Hto : ~ tweaks k o) by (apply (Ht t); apply in_or_app; right; now left).
    specialize (IH t Hc Ht'). rewrite run_snoc. cbn [fst snd].
    assert (Hmono : forall h1 t1 v d h2, h = h1 ++ (t1, OSet k v d) :: h2 -> ~ alive t1 d t -> ~ alive t1 d now) by (intros; unfold alive in *; lia).
    (* extending the history by an operation that does not override k *)
    assert (Ext : forall x, ~ overrides k o -> 
      lookup k (fst (fst (step t o (run_hist h)))) = lookup k (run_hist h) ->
      match lookup k (run_hist h) with Some x => exists h1 t v d h2, h = h1 ++ (t, OSet k v d) :: h2 /\ (forall t' o, In (t', o) h2 -> ~ overrides k o) /\ x = mkItem v (deadline t d)
      | None => True end -> x = lookup k (fst (fst (step t o (run_hist h)))) ->
      match x with
      | Some x => exists h1 t0 v d h2, h ++ [(t, o)] = h1 ++ (t0, OSet k v d) :: h2 /\ (forall t' o, In (t', o) h2 -> ~ overrides k o) /\ x = mkItem v (deadline t0 d)
      | None => forall h1 t0 v d h2, h ++ [(t, o)] = h1 ++ (t0, OSet k v d) :: h2 -> (forall t' o, In (t', o) h2 -> ~ overrides k o) -> ~ alive t0 d now
      end).
    { intros x Ho El Hh ->. rewrite El. destruct (lookup k (run_hist h)) as [x|].
      - destruct Hh as (h1 & t1 & v & d & h2 & -> & Hno & ->). exists h1, t1, v, d, (h2 ++ [(t, o)]). rewrite <- app_assoc. split; [reflexivity|]. split; [|reflexivity].
        intros t' o' Hin. apply in_app_or in Hin as [Hin|[E|[]]]; [eapply Hno; eauto|]. injection E as <- <-. exact Ho.
      - intros h1 t1 v d h2 E Hno. destruct h2 as [|[t2 o2] h2 _] using rev_ind.
        + apply app_inj_tail in E as [_ E]. injection E as -> ->. cbn in Ho. congruence.
        + rewrite app_comm_cons, app_assoc in E. apply app_inj_tail in E as [-> E]. injection E as <- <-.
          eapply Hmono; [reflexivity|]. eapply IH; [reflexivity|]. intros t' o' Hin. eapply Hno. apply in_or_app; eauto. }
    assert (Wk : match lookup k (run_hist h) with Some x => exists h1 t v d h2, h = h1 ++ (t, OSet k v d) :: h2 /\ (forall t' o, In (t', o) h2 -> ~ overrides k o) /\ x = mkItem v (deadline t d) | None => True end).
    { destruct (lookup k (run_hist h)); [exact IH|exact I]. }
    assert (Kill : overrides k o -> (forall v d, o <> OSet k v d) -> forall h1 t0 v d h2, h ++ [(t, o)] = h1 ++ (t0, OSet k v d) :: h2 -> (forall t' o, In (t', o) h2 -> ~ overrides k o) -> ~ alive t0 d now).
    { intros Ho Hs h1 t0 v d h2 E Hno. destruct h2 as [|[t2 o2] h2 _] using rev_ind.
      - apply app_inj_tail in E as [_ E]. injection E as -> ->. exfalso. now apply (Hs v d).
      - rewrite app_comm_cons, app_assoc in E. apply app_inj_tail in E as [_ E]. injection E as <- <-. exfalso. apply (Hno t o); [apply in_or_app; right; now left|exact Ho]. }
    destruct o as [k' v d|k' d|k' f|k'| |].
    + cbn [step fst snd] in *. rewrite lookup_put. destruct (String.eqb_spec k k') as [<-|Hk].
      * exists h, t, v, d, []. split; [reflexivity|]. split; [intros ? ? []|reflexivity].
      * apply (Ext (lookup k (run_hist h))); auto; cbn [overrides]; try congruence; rewrite lookup_put; destruct (String.eqb_spec k k'); congruence.
    + cbn [tweaks] in Hto. assert (El : lookup k (fst (fst (step t (OSetExp k' d) (run_hist h)))) = lookup k (run_hist h)).
      { cbn [step]. destruct (lookup k' (run_hist h)); cbn [fst]; [|reflexivity]. rewrite lookup_put. destruct (String.eqb_spec k k'); congruence. }
      apply Ext; auto.
    + cbn [tweaks] in Hto. assert (El : lookup k (fst (fst (step t (OModify k' f) (run_hist h)))) = lookup k (run_hist h)).
      { cbn [step]. destruct (lookup k' (run_hist h)) as [x|]; cbn [fst]; [|reflexivity]. destruct (f (it_object x)); cbn [fst]; [|reflexivity].
        rewrite lookup_put. destruct (String.eqb_spec k k'); congruence. }
      apply Ext; auto.
    + cbn [step fst snd] in *. rewrite lookup_del. destruct (String.eqb_spec k k') as [<-|Hk].
      * apply Kill; [reflexivity|discriminate].
      * apply (Ext (lookup k (run_hist h))); auto; cbn [overrides]; try congruence; rewrite lookup_del; destruct (String.eqb_spec k k'); congruence.
    + cbn [step fst snd lookup] in *. apply Kill; [exact I|discriminate].
    + cbn [step fst snd] in *. rewrite lookup_filter by apply run_uniq. destruct (lookup k (run_hist h)) as [x|] eqn:El.
      * destruct IH as (h1 & t1 & v & d & h2 & Eh & Hno & ->). cbn [snd]. destruct (expired t (mkItem v (deadline t1 d))) eqn:Ee; cbn [negb].
        -- (* swept: the last write is dead at t, hence at now *)
           intros h1' t1' v' d' h2' E' Hno'. assert (Hd : ~ alive t1 d t).
           { subst h. apply chrono_split in Hc. rewrite <- (expired_iff t1 v) by lia. congruence. }
           destruct h2' as [|[t2 o2] h2' _] using rev_ind.
           { apply app_inj_tail in E' as [_ E']. discriminate. }
           rewrite app_comm_cons, app_assoc in E'. apply app_inj_tail in E' as [E' E'']. injection E'' as <- <-.
           assert (Hsame : t1' = t1 /\ d' = d).
           { clear - E' Eh Hno Hno'. rewrite Eh in E'. clear Eh. revert h1' E'. induction h1 as [|y h1 IH]; intros h1' E'.
             - destruct h1' as [|z h1']; cbn in E'; [injection E' as -> -> -> _; auto|]. injection E' as <- E'. exfalso.
               apply (Hno t1' (OSet k v' d')); [rewrite E'; apply in_or_app; right; now left|reflexivity].
             - destruct h1' as [|z h1']; cbn in E'.
               + injection E' as -> E'. exfalso. apply (Hno' t1 (OSet k v d)); [apply in_or_app; left; rewrite <- E'; apply in_or_app; right; now left|reflexivity].
               + injection E' as <- E'. eauto. }
           destruct Hsame as [-> ->]. unfold alive in *. lia.
        -- exists h1, t1, v, d, (h2 ++ [(t, OSweep)]). subst h. rewrite <- app_assoc. split; [reflexivity|]. split; [|reflexivity].
           intros t' o' Hin. apply in_app_or in Hin as [Hin|[E|[]]]; [eapply Hno; eauto|]. injection E as <- <-. cbn. tauto.
      * intros h1 t1 v d h2 E Hno. destruct h2 as [|[t2 o2] h2 _] using rev_ind.
        -- apply app_inj_tail in E as [_ E]. discriminate.
        -- rewrite app_comm_cons, app_assoc in E. apply app_inj_tail in E as [-> E]. injection E as <- <-.
           eapply Hmono; [reflexivity|]. eapply IH; [reflexivity|]. intros t' o' Hin. eapply Hno. apply in_or_app; eauto.
Qed.

(** A lookup returns [v] exactly when [v] is the most recent write to the key, nothing
    overrode it since, and it has not expired. *)
Theorem C44_get_returns_latest_live_write : forall h now k v,
  chronological 1 h now -> (forall t o, In (t, o) h -> ~ tweaks k o) ->
  (get now k (run_hist h) = Some v <->
   exists h1 t d h2, h = h1 ++ (t, OSet k v d) :: h2 /\ (forall t' o, In (t', o) h2 -> ~ overrides k o) /\ alive t d now).
Proof.
  intros h now k v Hc Ht. pose proof (held h k now Hc Ht) as H. unfold get. destruct (lookup k (run_hist h)) as [x|].
  - destruct H as (h1 & t & v0 & d & h2 & Eh & Hno & ->). assert (Hr : 1 <= t <= now) by (subst h; eapply chrono_split; eauto).
    assert (Hlast : forall h1' t' v' d' h2', h = h1' ++ (t', OSet k v' d') :: h2' -> (forall s o, In (s, o) h2' -> ~ overrides k o) -> t' = t /\ v' = v0 /\ d' = d).
    { intros h1' t' v' d' h2' E' Hno'. rewrite Eh in E'. clear - E' Hno Hno'. revert h1' E'. induction h1 as [|y h1 IH]; intros h1' E'.
      - destruct h1' as [|z h1']; cbn in E'; [injection E' as -> -> -> _; auto|]. injection E' as <- E'. exfalso.
        apply (Hno t' (OSet k v' d')); [rewrite E'; apply in_or_app; right; now left|reflexivity].
      - destruct h1' as [|z h1']; cbn in E'.
        + injection E' as -> E'. exfalso. apply (Hno' t (OSet k v0 d)); [rewrite <- E'; apply in_or_app; right; now left|reflexivity].
        + injection E' as <- E'. eauto. }
    pose proof (expired_iff t v0 d now ltac:(lia) ltac:(lia)) as He. destruct (expired now _); split.
    + discriminate.
    + intros (h1' & t' & d' & h2' & E' & Hno' & Ha). destruct (Hlast _ _ _ _ _ E' Hno') as (-> & -> & ->). apply He in Ha. discriminate.
    + intros [= <-]. exists h1, t, d, h2. repeat split; auto. now apply He.
    + intros (h1' & t' & d' & h2' & E' & Hno' & Ha). destruct (Hlast _ _ _ _ _ E' Hno') as (_ & -> & _). reflexivity.
  - split; [discriminate|]. intros (h1 & t & d & h2 & E & Hno & Ha). exfalso. eapply H; eauto.
Qed.

(** In-place changes: [SetExpiration] gives a live entry a new deadline, [Modify] a new value, nothing else moves. *)
Theorem C44_set_expiration : forall h k v t d now, 1 <= t -> t <= now ->
  get t k (run_hist h) = Some v ->
  snd (fst (step t (OSetExp k d) (run_hist h))) = true /\
  (get now k (run_hist (h ++ [(t, OSetExp k d)])) = Some v <-> alive t d now) /\
  (get now k (run_hist (h ++ [(t, OSetExp k d)])) = None <-> ~ alive t d now).
Proof.
  intros h k v t d now Ht Hn Hg. rewrite run_snoc. cbn [fst snd step]. unfold get in *. destruct (lookup k (run_hist h)) as [x|] eqn:El; [|discriminate].
  cbn [fst snd]. rewrite lookup_put, String.eqb_refl. destruct (expired t x); [discriminate|]. injection Hg as ->. split; [reflexivity|].
  pose proof (expired_iff t v d now ltac:(lia) Hn) as He. destruct (expired now _); split; split; intros; try discriminate; try reflexivity; try tauto.
  - exfalso. apply He in H. discriminate.
  - intros Ha. apply He in Ha. discriminate.
Qed.
Theorem C44_modify : forall h k v t f now, t <= now ->
  get t k (run_hist h) = Some v ->
  snd (fst (step t (OModify k f) (run_hist h))) = (if f v then true else false) /\
  get now k (run_hist (h ++ [(t, OModify k f)])) =
    match get now k (run_hist h) with Some v => Some (match f v with Some v' => v' | None => v end) | None => None end.
Proof.
  intros h k v t f now Hn Hg. rewrite run_snoc. cbn [fst snd step]. unfold get in *. destruct (lookup k (run_hist h)) as [x|] eqn:El; [|discriminate].
  destruct (expired t x); [discriminate|]. assert (Ev : it_object x = v) by congruence. rewrite Ev. destruct (f v) as [v'|] eqn:Ef; cbn [fst snd]; (split; [reflexivity|]).
  - rewrite lookup_put, String.eqb_refl. unfold expired. cbn [it_exp it_object]. destruct (_ && _); [reflexivity|]. now rewrite Ef.
  - rewrite El. destruct (expired now x); [reflexivity|]. now rewrite Ef.
Qed.
(** An operation naming one key does not affect another; a sweep at [t] affects no lookup at or after [t]. *)
Definition names (o : op) (k : string) : Prop :=
  match o with OSet k' _ _ | OSetExp k' _ | OModify k' _ | ODelete k' => k' = k | OFlush => True | OSweep => False end.
Theorem C44_other_keys : forall h k t o now, t <= now -> ~ names o k ->
  get now k (run_hist (h ++ [(t, o)])) = get now k (run_hist h).
Proof.
  intros h k t o now Hn Ho. rewrite run_snoc. unfold get. cbn [fst snd].
  destruct o as [k' v d|k' d|k' f|k'| |]; cbn [names] in Ho; cbn [step].
  - cbn [fst]. rewrite lookup_put. destruct (String.eqb_spec k k'); [congruence|reflexivity].
  - destruct (lookup k' (run_hist h)); cbn [fst]; [|reflexivity]. rewrite lookup_put. destruct (String.eqb_spec k k'); [congruence|reflexivity].
  - destruct (lookup k' (run_hist h)) as [x|]; cbn [fst]; [|reflexivity]. destruct (f (it_object x)); cbn [fst]; [|reflexivity].
    rewrite lookup_put. destruct (String.eqb_spec k k'); [congruence|reflexivity].
  - cbn [fst]. rewrite lookup_del. destruct (String.eqb_spec k k'); [congruence|reflexivity].
  - now destruct Ho.
  - cbn [fst]. rewrite lookup_filter by apply run_uniq. destruct (lookup k (run_hist h)) as [x|]; [|reflexivity]. cbn [snd].
    destruct (expired t x) eqn:E; cbn [negb]; [|reflexivity]. unfold expired in *. apply andb_true_iff in E as [E1 E2].
    rewrite E1. cbn. apply Z.gtb_lt in E2. destruct (Z.gtb_spec now (it_exp x)); [reflexivity|lia].
Qed.
(** The eviction callback is called by a sweep exactly for the entries that the sweep removes, which no lookup could return any more. *)
Theorem C44_sweep_evicts_expired : forall h t k v,
  let '(m', _, evicted) := step t OSweep (run_hist h) in
  (In (k, v) evicted -> get t k (run_hist h) = None /\ lookup k m' = None) /\
  (get t k (run_hist h) = Some v -> get t k m' = Some v /\ ~ In k (map fst evicted)).
Proof.
  intros h t k v. cbn [step]. pose proof (run_uniq h) as Hu. split.
  - intros Hin. apply in_map_iff in Hin as ([k' x] & E & Hin). cbn in E. injection E as <- <-. apply filter_In in Hin as [Hin He]. cbn in He.
    apply lookup_in in Hin; [|exact Hu]. split; [unfold get; now rewrite Hin, He|]. rewrite lookup_filter by exact Hu. rewrite Hin. cbn. now rewrite He.
  - intros Hg. unfold get in *. rewrite lookup_filter by exact Hu. destruct (lookup k (run_hist h)) as [x|] eqn:El; [|discriminate]. cbn.
    destruct (expired t x) eqn:Ee; [discriminate|]. cbn. rewrite Ee. split; [exact Hg|].
    intros Hin. rewrite map_map in Hin. apply in_map_iff in Hin as ([k' y] & E & Hin). cbn in E. subst k'. apply filter_In in Hin as [Hin He]. cbn in He.
    apply lookup_in in Hin; [|exact Hu]. congruence.
Qed.
(** For every operation but Flush (which reports nothing) the eviction callback gets exactly the entries that the operation removes, with their values. *)
Theorem C44_evictions_exact : forall h t o k v, o <> OFlush ->
  let '(m', _, evicted) := step t o (run_hist h) in
  (In (k, v) evicted <-> (exists x, lookup k (run_hist h) = Some x /\ it_object x = v) /\ lookup k m' = None) /\ NoDup (map fst evicted).
Proof.
  intros h t o k v NF. pose proof (run_uniq h) as Hu. set (m := run_hist h) in *.
  assert (Z : forall k' x, (In (k, v) (@nil (string * V)) <-> (exists x, lookup k m = Some x /\ it_object x = v) /\ lookup k (put k' x m) = None) /\ NoDup (map fst (@nil (string * V)))).
  { intros k' x. split; [|constructor]. rewrite lookup_put. split; [intros []|]. intros ((y & A & _) & B). destruct (String.eqb k k'); congruence. }
  assert (ID : (In (k, v) (@nil (string * V)) <-> (exists x, lookup k m = Some x /\ it_object x = v) /\ lookup k m = None) /\ NoDup (map fst (@nil (string * V)))).
  { split; [|constructor]. split; [intros []|]. intros ((y & A & _) & B). congruence. }
  destruct o as [k' v' d|k' d|k' f|k'| |]; cbn [step].
  - apply Z.
  - destruct (lookup k' m) as [x|]; [apply Z|exact ID].
  - destruct (lookup k' m) as [x|]; [|exact ID]. destruct (f (it_object x)); [apply Z|exact ID].
  - rewrite lookup_del. destruct (lookup k' m) as [x|] eqn:E; (split; [|cbn; repeat constructor; auto]).
    + destruct (String.eqb_spec k k') as [->|N].
      * rewrite E. split; [intros [H|[]]; injection H as <-; eauto|]. intros ((y & A & B) & _). injection A as ->. left. now rewrite B.
      * split; [intros [H|[]]; injection H as H _; congruence|]. intros ((y & A & B) & C). congruence.
    + split; [intros []|]. intros ((y & A & B) & C). destruct (String.eqb_spec k k') as [->|N]; congruence.
  - contradiction.
  - rewrite lookup_filter by exact Hu. split.
    + split.
      * intros Hin. apply in_map_iff in Hin as ([k' x] & E & Hin). cbn in E. injection E as <- <-. apply filter_In in Hin as [Hin He]. cbn in He.
        apply lookup_in in Hin; [|exact Hu]. rewrite Hin. cbn. rewrite He. eauto.
      * intros ((x & A & B) & C). rewrite A in C. cbn in C. destruct (expired t x) eqn:E; [|discriminate].
        apply in_map_iff. exists (k, x). cbn. rewrite B. split; [reflexivity|]. apply filter_In. split; [now apply lookup_in|exact E].
    + rewrite map_map. cbn. apply (filter_uniq _ _ Hu).
Qed.
(** Listing returns exactly what lookups would return. *)
Theorem C44_list_agrees_with_get : forall h t k v, In (k, v) (list_items t (run_hist h)) <-> get t k (run_hist h) = Some v.
Proof.
  intros h t k v. pose proof (run_uniq h) as Hu. unfold list_items, get. split.
  - intros Hin. apply in_map_iff in Hin as ([k' x] & E & Hin). cbn in E. injection E as <- <-. apply filter_In in Hin as [Hin He]. cbn in He.
    apply lookup_in in Hin; [|exact Hu]. rewrite Hin. now destruct (expired t x).
  - intros Hg. destruct (lookup k (run_hist h)) as [x|] eqn:El; [|discriminate]. destruct (expired t x) eqn:Ee; [discriminate|]. injection Hg as <-.
    apply in_map_iff. exists (k, x). split; [reflexivity|]. apply filter_In. cbn. rewrite Ee. split; [|reflexivity]. now apply lookup_in.
Qed.
End Cache.
Print Assumptions C44_get_returns_latest_live_write.
Print Assumptions C44_set_expiration.
Print Assumptions C44_modify.
Print Assumptions C44_other_keys.
Print Assumptions C44_sweep_evicts_expired.
Print Assumptions C44_evictions_exact.
Print Assumptions C44_list_agrees_with_get.

(** The restriction of [C44_get_returns_latest_live_write] to histories without in-place
    changes of the key is necessary: [SetExpiration] does not look at the deadline, so it
    revives an entry that had already expired, unless the janitor came first. *)
Theorem C44_expired_entry_revived_refuted : exists (h : hist (V := nat)) k v now,
  get 10 k (run_hist (-1) h) = None /\
  get now k (run_hist (-1) (h ++ [(10, OSetExp k 5)])) = Some v /\
  get now k (run_hist (-1) (h ++ [(10, OSweep); (10, OSetExp k 5)])) = None.
Proof. exists [(1, OSet "k" 7%nat 3)], "k"%string, 7%nat, 12. vm_compute. auto. Qed.
Print Assumptions C44_expired_entry_revived_refuted.

Example C44_nonvacuous : let h := [(1, OSet "k" 7%nat 3); (2, OSet "l" 1%nat 0); (2, OSetExp "l" 9); (3, OSet "k" 8%nat 10); (5, OSweep); (6, ODelete "l")] in
  chronological 1 h 9 /\ (forall t o, In (t, o) h -> ~ tweaks "k" o) /\ get 9 "k" (run_hist (-1) h) = Some 8%nat.
Proof.
  cbn zeta. split; [cbn; lia|]. split; [|reflexivity].
  intros t o H. cbn in H. repeat (destruct H as [E|H]; [injection E as <- <-; cbn; try discriminate; tauto|]). destruct H.
Qed.
