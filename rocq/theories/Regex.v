(** Regular expressions with the matching rule of Go's regexp package (RE2 syntax, leftmost-first): of all ways to match,
    the first in order of preference is taken.  Used by Creds.v (runtime/docker/reference.go:14-69).
    Simplification: texts are lists of bytes; a repetition of something empty is not tried. *)
From Coq Require Import List Ascii Bool Lia.
Import ListNotations.

Inductive re := Eps | Chr (p : ascii -> bool) | Seq (a b : re) | Alt (a b : re) | Star (r : re) | Cap (n : nat) (r : re).
Definition text := list ascii.
(** one way to match: what is matched, what is left, the captured groups *)
Definition way := (text * text * list (nat * text))%type.
Definition after (x y : way) : way :=
  match x, y with (c, _, k), (c', r', k') => (c ++ c', r', k ++ k') end.
(** the ways to match at the start of a text, in order of preference *)
Fixpoint star_ways (f : text -> list way) (n : nat) (s : text) : list way :=
  match n with
  | O => [([], s, [])]
  | S n => flat_map (fun x : way => match x with
                      | ([], _, _) => []
                      | (_, r, _) => map (after x) (star_ways f n r)
                      end) (f s) ++ [([], s, [])]
  end.
Fixpoint ways (r : re) (s : text) : list way :=
  match r with
  | Eps => [([], s, [])]
  | Chr p => match s with c :: s' => if p c then [([c], s', [])] else [] | [] => [] end
  | Seq a b => flat_map (fun x : way => match x with (_, rest, _) => map (after x) (ways b rest) end) (ways a s)
  | Alt a b => ways a s ++ ways b s
  | Star r => star_ways (ways r) (length s) s
  | Cap n r => map (fun x : way => match x with (c, rest, k) => (c, rest, (n, c) :: k) end) (ways r s)
  end.
Definition whole (x : way) : bool := match x with (_, [], _) => true | _ => false end.
(** FindStringSubmatch of the anchored expression *)
Definition find_groups (r : re) (s : text) : option (list (nat * text)) := option_map snd (find whole (ways r s)).
(** a group that did not take part is empty *)
Definition group (n : nat) (k : list (nat * text)) : text :=
  match find (fun p => Nat.eqb (fst p) n) k with Some (_, c) => c | None => [] end.

Definition opt (r : re) : re := Alt r Eps.            (* r? *)
Definition plus (r : re) : re := Seq r (Star r).      (* r+ *)
Fixpoint upto (n : nat) (r : re) : re := match n with O => Eps | S n => opt (Seq r (upto n r)) end.   (* r{0,n} *)
Fixpoint times (n : nat) (r : re) (k : re) : re := match n with O => k | S n => Seq r (times n r k) end.
Definition lit (c : ascii) : re := Chr (Ascii.eqb c).

(** the texts an expression describes *)
Inductive lang : re -> text -> Prop :=
| l_eps : lang Eps []
| l_chr p c : p c = true -> lang (Chr p) [c]
| l_seq a b x y : lang a x -> lang b y -> lang (Seq a b) (x ++ y)
| l_alt1 a b x : lang a x -> lang (Alt a b) x
| l_alt2 a b x : lang b x -> lang (Alt a b) x
| l_star0 r : lang (Star r) []
| l_star r x y : lang r x -> lang (Star r) y -> lang (Star r) (x ++ y)
| l_cap n r x : lang r x -> lang (Cap n r) x.

Lemma star_ways_sound f r n : (forall s c rest k, In (c, rest, k) (f s) -> s = c ++ rest /\ lang r c) ->
  forall s c rest k, In (c, rest, k) (star_ways f n s) -> s = c ++ rest /\ lang (Star r) c.
Proof.
  intros Hf. induction n as [|n IH]; intros s c rest k H; cbn in H.
  - destruct H as [H|[]]. injection H as <- <- <-. split; [reflexivity|constructor].
  - apply in_app_or in H as [H|[H|[]]]; [|injection H as <- <- <-; split; [reflexivity|constructor]].
    apply in_flat_map in H as ([[c1 r1] k1] & H1 & H2). destruct (Hf _ _ _ _ H1) as (-> & L1).
    destruct c1 as [|a c1]; [contradiction|]. apply in_map_iff in H2 as ([[c2 r2] k2] & E & H2). cbn in E. injection E as <- <- <-.
    destruct (IH _ _ _ _ H2) as (-> & L2). split; [exact (app_assoc (a :: c1) c2 r2)|]. exact (l_star r (a :: c1) c2 L1 L2).
Qed.
Lemma ways_sound r : forall s c rest k, In (c, rest, k) (ways r s) -> s = c ++ rest /\ lang r c.
Proof.
  induction r as [|p|a IHa b IHb|a IHa b IHb|r IH|n r IH]; intros s c rest k H; cbn [ways] in H.
  - destruct H as [H|[]]. injection H as <- <- <-. split; [reflexivity|constructor].
  - destruct s as [|x s]; [contradiction|]. destruct (p x) eqn:E; [|contradiction]. destruct H as [H|[]]. injection H as <- <- <-.
    split; [reflexivity|constructor; exact E].
  - apply in_flat_map in H as ([[c1 r1] k1] & H1 & H2). apply in_map_iff in H2 as ([[c2 r2] k2] & E & H2). cbn in E. injection E as <- <- <-.
    destruct (IHa _ _ _ _ H1) as (-> & L1). destruct (IHb _ _ _ _ H2) as (-> & L2).
    split; [rewrite <- app_assoc; reflexivity|constructor; assumption].
  - apply in_app_or in H as [H|H].
    + destruct (IHa _ _ _ _ H) as (-> & L). split; [reflexivity|apply l_alt1; exact L].
    + destruct (IHb _ _ _ _ H) as (-> & L). split; [reflexivity|apply l_alt2; exact L].
  - exact (star_ways_sound _ r _ IH _ _ _ _ H).
  - apply in_map_iff in H as ([[c1 r1] k1] & E & H). injection E as <- <- <-.
    destruct (IH _ _ _ _ H) as (-> & L). split; [reflexivity|constructor; exact L].
Qed.
Lemma star_ways_complete f r : (forall c rest, lang r c -> exists k, In (c, rest, k) (f (c ++ rest))) ->
  forall c, lang (Star r) c -> forall n rest, length c <= n -> exists k, In (c, rest, k) (star_ways f n (c ++ rest)).
Proof.
  intros Hf c H. remember (Star r) as st eqn:E. induction H; inversion E; subst.
  - intros n rest _. exists []. destruct n; cbn; [left; reflexivity|]. apply in_or_app. right. left. reflexivity.
  - intros n rest Hn. destruct x as [|a x]; [exact (IHlang2 eq_refl n rest Hn)|].
    destruct n as [|n]; [cbn in Hn; lia|].
    destruct (Hf (a :: x) (y ++ rest) H) as (k1 & I1).
    destruct (IHlang2 eq_refl n rest) as (k2 & I2); [rewrite app_length in Hn; cbn in Hn; lia|].
    exists (k1 ++ k2). cbn [star_ways]. apply in_or_app. left. apply in_flat_map. exists (a :: x, y ++ rest, k1).
    split; [rewrite <- app_assoc; exact I1|]. apply in_map_iff. exists (y, rest, k2). split; [reflexivity|exact I2].
Qed.
Lemma ways_complete r : forall c rest, lang r c -> exists k, In (c, rest, k) (ways r (c ++ rest)).
Proof.
  induction r as [|p|a IHa b IHb|a IHa b IHb|r IH|n r IH]; intros c rest H; cbn [ways].
  - inversion H; subst. exists []. left. reflexivity.
  - inversion H as [|? x Hx| | | | | |]; subst. exists []. cbn. rewrite Hx. left. reflexivity.
  - inversion H as [| |? ? x y Hx Hy| | | | |]; subst.
    destruct (IHa x (y ++ rest) Hx) as (k1 & I1). destruct (IHb y rest Hy) as (k2 & I2).
    exists (k1 ++ k2). apply in_flat_map. exists (x, y ++ rest, k1). split; [rewrite <- app_assoc; exact I1|].
    apply in_map_iff. exists (y, rest, k2). split; [reflexivity|exact I2].
  - inversion H as [| | |? ? x Hx|? ? x Hx| | |]; subst.
    + destruct (IHa c rest Hx) as (k & I). exists k. apply in_or_app. left. exact I.
    + destruct (IHb c rest Hx) as (k & I). exists k. apply in_or_app. right. exact I.
  - apply star_ways_complete with (r := r); [exact IH|exact H|]. rewrite app_length. lia.
  - inversion H as [| | | | | | |? ? x Hx]; subst. destruct (IH c rest Hx) as (k & I). exists ((n, c) :: k).
    apply in_map_iff. exists (c, rest, k). split; [reflexivity|exact I].
Qed.
(** a text is found exactly if it is described *)
Lemma find_groups_lang r s : (exists k, find_groups r s = Some k) <-> lang r s.
Proof.
  unfold find_groups. split.
  - intros (k & H). destruct (find whole (ways r s)) as [[[c rest] k']|] eqn:E; [|discriminate].
    apply find_some in E as (Hin & Hw). destruct rest; [|discriminate]. destruct (ways_sound _ _ _ _ _ Hin) as (-> & L).
    rewrite app_nil_r. exact L.
  - intros L. destruct (ways_complete r s [] L) as (k & I). rewrite app_nil_r in I.
    destruct (find whole (ways r s)) as [x|] eqn:E; [exists (snd x); reflexivity|].
    exfalso. exact (diff_true_false (find_none _ _ E _ I)).
Qed.
(** expressions without groups capture nothing *)
Fixpoint plain_re (r : re) : bool :=
  match r with Eps => true | Chr _ => true | Seq a b => plain_re a && plain_re b | Alt a b => plain_re a && plain_re b
  | Star r => plain_re r | Cap _ _ => false end.
Lemma plain_ways r : plain_re r = true -> forall s c rest k, In (c, rest, k) (ways r s) -> k = [].
Proof.
  induction r as [|p|a IHa b IHb|a IHa b IHb|r IH|n r IH]; cbn [plain_re]; intros P s c rest k H; cbn [ways] in H.
  - destruct H as [H|[]]. injection H as _ _ <-. reflexivity.
  - destruct s as [|x s]; [contradiction|]. destruct (p x); [|contradiction]. destruct H as [H|[]]. injection H as _ _ <-. reflexivity.
  - apply andb_prop in P as (Pa & Pb).
    apply in_flat_map in H as ([[c1 r1] k1] & H1 & H2). apply in_map_iff in H2 as ([[c2 r2] k2] & E & H2). cbn in E. injection E as <- <- <-.
    rewrite (IHa Pa _ _ _ _ H1), (IHb Pb _ _ _ _ H2). reflexivity.
  - apply andb_prop in P as (Pa & Pb). apply in_app_or in H as [H|H]; [exact (IHa Pa _ _ _ _ H)|exact (IHb Pb _ _ _ _ H)].
  - revert H. generalize (length s) as n. intros n. revert s c rest k. induction n as [|n IHn]; intros s c rest k H; cbn in H.
    + destruct H as [H|[]]. injection H as _ _ <-. reflexivity.
    + apply in_app_or in H as [H|[H|[]]]; [|injection H as _ _ <-; reflexivity].
      apply in_flat_map in H as ([[c1 r1] k1] & H1 & H2). destruct c1; [contradiction|].
      apply in_map_iff in H2 as ([[c2 r2] k2] & E & H2). cbn in E. injection E as <- <- <-.
      rewrite (IH P _ _ _ _ H1), (IHn _ _ _ _ H2). reflexivity.
  - discriminate.
Qed.
