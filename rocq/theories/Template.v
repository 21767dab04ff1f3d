(** C42: evaluation of templates.  internal/eval/eval.go:13 (the regular expression), 139-160 (EvaluateTemplate),
    162-193 (ValidExpr, sanitizeExpr, EvaluateExpr).

    The regular expression is {{\s*(.+?)\s*}}, matched as Go does: leftmost occurrence, and among the matches
    starting there the one a backtracking search finds first ("\s*" prefers more, ".+?" prefers less).
    Strings are byte strings: "\s", braces and line feed are ASCII, which in UTF-8 never occurs inside another
    character, so matching bytes or characters is the same. *)
From Coq Require Import String List Ascii Bool Arith Lia.
Import ListNotations.
Open Scope list_scope.
Open Scope nat_scope.

Definition bytes := list ascii.
Definition str (s : string) : bytes := list_ascii_of_string s.
(** \s is [\t\n\f\r ] *)
Definition is_space (c : ascii) : bool :=
  let n := nat_of_ascii c in (n =? 9) || (n =? 10) || (n =? 12) || (n =? 13) || (n =? 32).
(** the blanks: tab, line feed, form feed, carriage return and space *)
Theorem C42_blanks : forall c, is_space c = true <-> In (nat_of_ascii c) [9; 10; 12; 13; 32].
Proof.
  intros c. unfold is_space. cbn [In]. rewrite !orb_true_iff, !Nat.eqb_eq. intuition congruence.
Qed.
Definition newline : ascii := ascii_of_nat 10.
Definition lb : ascii := "{"%char.
Definition rb : ascii := "}"%char.

(* ------------------------------------------------------------------ *)
(** * Specification *)
Definition occurs (s v : bytes) : Prop := exists a b, v = a ++ s ++ b.
Definition blank (w : bytes) : Prop := Forall (fun c => is_space c = true) w.
(** The pieces a user writes: text, and expressions between double braces with blanks around *)
Inductive piece := Text (t : bytes) | Tag (w1 x w2 : bytes).
Definition written (p : piece) : bytes :=
  match p with Text t => t | Tag w1 x w2 => [lb; lb] ++ w1 ++ x ++ w2 ++ [rb; rb] end.
Fixpoint source (l : list piece) : bytes := match l with [] => [] | p :: l => written p ++ source l end.
(** An expression as one writes it: on one line, not empty, not starting or ending with a blank, without "}}" and not
    ending with "}" *)
Definition plain_expr (x : bytes) : Prop :=
  (exists c, head x = Some c /\ is_space c = false) /\ (exists y c, x = y ++ [c] /\ is_space c = false /\ c <> rb) /\
  ~ In newline x /\ ~ occurs [rb; rb] x.
(** A template as one writes it: no "{{" in the text, no "{" at the end of a text that is followed by something *)
Fixpoint plain (l : list piece) : Prop :=
  match l with
  | [] => True
  | Text t :: l => ~ occurs [lb; lb] t /\ (l = [] \/ forall t', t <> t' ++ [lb]) /\ plain l
  | Tag w1 x w2 :: l => blank w1 /\ plain_expr x /\ blank w2 /\ plain l
  end.
(** What it should evaluate to: texts as they are, tags replaced by the value of the expression; nothing if one has none *)
Fixpoint meaning (ev : bytes -> option bytes) (l : list piece) : option bytes :=
  match l with
  | [] => Some []
  | p :: l => match (match p with Text t => Some t | Tag _ x _ => ev x end) with
    | None => None
    | Some v => match meaning ev l with None => None | Some r => Some (v ++ r) end
    end
  end.

(* ------------------------------------------------------------------ *)
(** * Model *)
Arguments is_space : simpl never.
Fixpoint drop_space (l : bytes) : bytes := match l with c :: l' => if is_space c then drop_space l' else l | [] => [] end.
Fixpoint space_run (l : bytes) : nat := match l with c :: l' => if is_space c then S (space_run l') else 0 | [] => 0 end.
Definition strip2 (b : ascii) (l : bytes) : option bytes :=
  match l with c :: d :: r => if Ascii.eqb c b && Ascii.eqb d b then Some r else None | _ => None end.
(** \s*}}: a brace is no blank, so only the longest run of blanks can be followed by one *)
Definition closes (l : bytes) : option bytes := strip2 rb (drop_space l).
(** (.+?)\s*}}: the shortest non-empty text without line feed that is followed by \s*}} *)
Fixpoint lazy_expr (l : bytes) : option (bytes * bytes) :=
  match l with
  | [] => None
  | c :: l' => if Ascii.eqb c newline then None
    else match closes l' with
      | Some r => Some ([c], r)
      | None => match lazy_expr l' with Some (x, r) => Some (c :: x, r) | None => None end
      end
  end.
(** \s*(.+?)\s*}}: the longest run of blanks first, then shorter ones *)
Fixpoint after_open (k : nat) (l : bytes) : option (bytes * bytes) :=
  match lazy_expr (skipn k l) with
  | Some m => Some m
  | None => match k with O => None | S k => after_open k l end
  end.
(** a match starting here: the submatch and what follows the match *)
Definition match_here (l : bytes) : option (bytes * bytes) :=
  match strip2 lb l with Some l => after_open (space_run l) l | None => None end.
(** FindAllStringSubmatchIndex: the text before the first match, its submatch, and so on after its end.  The fuel is
    the length of the text, which is enough. *)
Inductive seg := SText (t : bytes) | SExpr (x : bytes).
Fixpoint find_all (fuel : nat) (acc l : bytes) : list seg :=
  match fuel with
  | O => [SText (acc ++ l)]
  | S fuel => match l with
    | [] => [SText acc]
    | c :: l' => match match_here l with
      | Some (x, r) => SText acc :: SExpr x :: find_all fuel [] r
      | None => find_all fuel (acc ++ [c]) l'
      end
    end
  end.
Definition segments (ex : bytes) : list seg := find_all (length ex) [] ex.
(** eval.go:143-159, the loop; [ev x]: EvaluateExpr and formatting with %v *)
Fixpoint write_out (ev : bytes -> option bytes) (l : list seg) (buf : bytes) : option bytes :=
  match l with
  | [] => Some buf
  | SText t :: l => write_out ev l (buf ++ t)
  | SExpr x :: l => match ev x with None => None | Some v => write_out ev l (buf ++ v) end
  end.
(** eval.go:139-160 *)
Definition evaluate_template (ev : bytes -> option bytes) (ex : bytes) : option bytes :=
  match ex with [] => Some [] | _ => write_out ev (segments ex) [] end.
(** eval.go:168-173 *)
Fixpoint sanitize (fuel : nat) (ex l : bytes) : bytes :=
  match fuel with O => ex | S fuel =>
    match l with [] => ex | _ :: l' => match match_here l with Some (x, _) => x | None => sanitize fuel ex l' end end end.
Definition sanitize_expr (ex : bytes) : bytes := sanitize (length ex) ex ex.

(* ------------------------------------------------------------------ *)
(** * Proofs *)
Lemma rb_not_space : is_space rb = false. Proof. reflexivity. Qed.
Lemma strip2_inv : forall b l r, strip2 b l = Some r -> l = b :: b :: r.
Proof.
  intros b [|c [|d l]] r H; try discriminate. cbn in H. destruct (Ascii.eqb_spec c b), (Ascii.eqb_spec d b); cbn in H; try discriminate.
  injection H as <-. now subst.
Qed.
Lemma strip2_here : forall b r, strip2 b (b :: b :: r) = Some r.
Proof. intros. cbn. now rewrite Ascii.eqb_refl. Qed.
Lemma drop_space_app : forall w l, blank w -> drop_space (w ++ l) = drop_space l.
Proof. intros w l H. induction H as [|c w Hc H IH]; cbn; [reflexivity|]. now rewrite Hc. Qed.
Lemma drop_space_split : forall l, exists w, blank w /\ l = w ++ drop_space l.
Proof.
  induction l as [|c l (w & Hw & E)]; [exists []; split; [constructor|reflexivity]|]. cbn. destruct (is_space c) eqn:Hc.
  - exists (c :: w). split; [now constructor|]. cbn. now f_equal.
  - exists []. split; [constructor|reflexivity].
Qed.
Lemma space_run_app : forall w l, blank w -> (forall c, head l = Some c -> is_space c = false) -> space_run (w ++ l) = length w.
Proof.
  intros w l H Hl. induction H as [|c w Hc H IH]; cbn [app space_run length].
  - destruct l as [|c l]; [reflexivity|]. cbn [space_run]. now rewrite (Hl c eq_refl).
  - now rewrite Hc, IH.
Qed.
Lemma space_run_blank : forall l k, k <= space_run l -> blank (firstn k l).
Proof.
  induction l as [|c l IH]; intros k H; destruct k as [|k]; cbn in *; try apply Forall_nil.
  destruct (is_space c) eqn:Hc; [|lia]. constructor; [assumption|]. apply IH. lia.
Qed.

Lemma closes_here : forall w r, blank w -> closes (w ++ rb :: rb :: r) = Some r.
Proof. intros w r H. unfold closes. rewrite drop_space_app by assumption. cbn. reflexivity. Qed.
Lemma closes_inv : forall l r, closes l = Some r -> exists w, blank w /\ l = w ++ rb :: rb :: r.
Proof.
  intros l r H. destruct (drop_space_split l) as (w & Hw & E). exists w. split; [assumption|]. unfold closes in H.
  apply strip2_inv in H. now rewrite E, H.
Qed.
Lemma closes_not : forall c l, is_space c = false -> (c <> rb \/ head l <> Some rb) -> closes (c :: l) = None.
Proof.
  intros c l Hc H. unfold closes. cbn [drop_space]. rewrite Hc. destruct l as [|d l]; [reflexivity|]. cbn.
  destruct (Ascii.eqb_spec c rb), (Ascii.eqb_spec d rb); try reflexivity. subst. cbn in H. destruct H; congruence.
Qed.

(** the shortest expression in front of ... of a plain expression is the whole of it *)
Lemma closes_inside : forall y c z r, is_space c = false -> c <> rb -> ~ occurs [rb; rb] (y ++ [c]) -> closes (y ++ c :: z ++ r) = None.
Proof.
  induction y as [|d y IH]; intros c z r Hc Hr Ho; cbn [app].
  - apply closes_not; auto.
  - destruct (is_space d) eqn:Hd.
    + unfold closes in *. cbn [drop_space]. rewrite Hd. apply IH; auto. intros (a & b & E). apply Ho. exists (d :: a), b. cbn. now rewrite E.
    + apply closes_not; [exact Hd|]. destruct (ascii_dec d rb) as [->|N]; [right|auto].
      destruct y as [|e y]; cbn; [congruence|]. intros [= ->]. apply Ho. exists [], (y ++ [c]). reflexivity.
Qed.
Lemma lazy_expr_plain : forall x w r, x <> [] -> (exists y c, x = y ++ [c] /\ is_space c = false /\ c <> rb) -> ~ In newline x -> ~ occurs [rb; rb] x -> blank w ->
  lazy_expr (x ++ w ++ rb :: rb :: r) = Some (x, r).
Proof.
  induction x as [|c x IH]; intros w r Hne (y & e & E & He & Hr) Hn Ho Hw; [congruence|]. cbn [app lazy_expr].
  destruct (Ascii.eqb_spec c newline) as [->|Nc]; [exfalso; apply Hn; now left|].
  destruct x as [|d x].
  - cbn [app]. rewrite closes_here by assumption. reflexivity.
  - destruct y as [|c' y]; [discriminate|]. cbn in E. injection E as <- E.
    assert (Ho' : ~ occurs [rb; rb] (d :: x)) by (intros (a & b & E'); apply Ho; exists (c :: a), b; cbn; now rewrite E').
    replace (closes ((d :: x) ++ w ++ rb :: rb :: r)) with (@None bytes).
    + rewrite IH; [reflexivity|discriminate|exists y, e; auto| |exact Ho'|assumption]. intros H. apply Hn. now right.
    + symmetry. rewrite E. rewrite <- app_assoc. cbn [app].
      apply (closes_inside y e [] (w ++ rb :: rb :: r)); auto. now rewrite <- E.
Qed.
Lemma match_plain : forall w1 x w2 r, blank w1 -> plain_expr x -> blank w2 ->
  match_here (written (Tag w1 x w2) ++ r) = Some (x, r).
Proof.
  intros w1 x w2 r H1 ((c & Hc & Hs) & Hl & Hn & Ho) H2. unfold match_here. cbn [written app]. rewrite strip2_here.
  rewrite <- !app_assoc. cbn [app]. assert (Hx : x <> []) by (intros ->; discriminate).
  rewrite space_run_app; [|assumption|].
  - destruct (length w1) eqn:E; cbn [after_open]; rewrite <- E, skipn_app, skipn_all, Nat.sub_diag; cbn [app skipn];
      rewrite lazy_expr_plain by assumption; reflexivity.
  - intros c' H'. destruct x as [|d x]; [congruence|]. cbn in *. congruence.
Qed.

Lemma match_here_inv : forall l x r, match_here l = Some (x, r) -> exists w1 w2, blank w1 /\ blank w2 /\ x <> [] /\ ~ In newline x /\ l = written (Tag w1 x w2) ++ r.
Proof.
  intros l x r H. unfold match_here in H. destruct (strip2 lb l) as [l0|] eqn:E; [|discriminate]. apply strip2_inv in E. subst l.
  assert (L : forall l x r, lazy_expr l = Some (x, r) -> exists w2, blank w2 /\ x <> [] /\ ~ In newline x /\ l = x ++ w2 ++ rb :: rb :: r).
  { clear. induction l as [|c l IH]; intros x r H; [discriminate|]. cbn [lazy_expr] in H. destruct (Ascii.eqb_spec c newline) as [|N]; [discriminate|].
    destruct (closes l) as [r0|] eqn:C.
    - injection H as <- <-. destruct (closes_inv _ _ C) as (w & Hw & ->). exists w. split; [assumption|]. split; [intros [=]|]. split; [|reflexivity]. intros [->|[]]. congruence.
    - destruct (lazy_expr l) as [[x0 r0]|]; [|discriminate]. injection H as <- <-. destruct (IH _ _ eq_refl) as (w & Hw & Hx & Hn & ->).
      exists w. split; [assumption|]. split; [intros [=]|]. split; [|reflexivity]. intros [->|Hi]; [congruence|auto]. }
  assert (A : forall k, k <= space_run l0 -> after_open k l0 = Some (x, r) -> exists w1, blank w1 /\ exists l1, l0 = w1 ++ l1 /\ lazy_expr l1 = Some (x, r)).
  { induction k as [|k IH]; intros Hk Ha; cbn [after_open] in Ha.
    - cbn [skipn] in Ha. destruct (lazy_expr l0) as [[]|] eqn:El; [|discriminate]. injection Ha as -> ->. exists []. split; [constructor|]. now exists l0.
    - destruct (lazy_expr (skipn (S k) l0)) as [[]|] eqn:El.
      + injection Ha as -> ->. exists (firstn (S k) l0). split; [now apply space_run_blank|]. exists (skipn (S k) l0). now rewrite firstn_skipn.
      + apply IH; [lia|assumption]. }
  destruct (A _ (le_n _) H) as (w1 & Hw1 & l1 & -> & Hl). destruct (L _ _ _ Hl) as (w2 & Hw2 & Hx & Hn & ->).
  exists w1, w2. repeat split; auto. cbn [written app]. rewrite <- !app_assoc. reflexivity.
Qed.
Lemma no_match : forall l, (forall r, l <> lb :: lb :: r) -> match_here l = None.
Proof.
  intros l H. unfold match_here. destruct (strip2 lb l) as [r|] eqn:E; [|reflexivity]. apply strip2_inv in E. exfalso. eapply H; eauto.
Qed.

(** enough fuel *)
Lemma match_shorter : forall l x r, match_here l = Some (x, r) -> length r < length l.
Proof.
  intros l x r H. destruct (match_here_inv _ _ _ H) as (w1 & w2 & _ & _ & _ & _ & ->). rewrite app_length. cbn. lia.
Qed.
Lemma find_all_fuel : forall f f' acc l, length l <= f -> length l <= f' -> find_all f acc l = find_all f' acc l.
Proof.
  induction f as [|f IH]; intros f' acc l H H'.
  - destruct l; [|cbn in H; lia]. destruct f'; cbn; now rewrite ?app_nil_r.
  - destruct f' as [|f']; [destruct l; [cbn; now rewrite app_nil_r|cbn in H'; lia]|]. cbn [find_all].
    destruct l as [|c l]; [reflexivity|]. destruct (match_here (c :: l)) as [[x r]|] eqn:E.
    + pose proof (match_shorter _ _ _ E). cbn in *. do 2 f_equal. apply IH; lia.
    + cbn in *. apply IH; lia.
Qed.

(** ** Any string is cut into texts and tags, without losing a character; what is cut does not depend on the values *)
Definition seg_of (p : piece) : seg := match p with Text t => SText t | Tag _ x _ => SExpr x end.
Lemma find_all_pieces : forall f acc l, length l <= f -> exists ps,
  source ps = acc ++ l /\ map seg_of ps = find_all f acc l /\
  Forall (fun p => match p with Text _ => True | Tag w1 x w2 => blank w1 /\ blank w2 /\ x <> [] /\ ~ In newline x end) ps.
Proof.
  induction f as [|f IH]; intros acc l H.
  - exists [Text (acc ++ l)]. cbn. rewrite app_nil_r. repeat constructor.
  - cbn [find_all]. destruct l as [|c l]; [exists [Text acc]; cbn; rewrite !app_nil_r; repeat constructor|].
    destruct (match_here (c :: l)) as [[x r]|] eqn:E.
    + pose proof (match_shorter _ _ _ E). destruct (match_here_inv _ _ _ E) as (w1 & w2 & H1 & H2 & H3 & H4 & El).
      destruct (IH [] r) as (ps & A & B & C); [cbn in *; lia|].
      exists (Text acc :: Tag w1 x w2 :: ps). split; [|split].
      * cbn [source]. change (written (Text acc)) with acc. rewrite A, El. reflexivity.
      * cbn. now rewrite B.
      * constructor; [exact I|]. constructor; auto.
    + destruct (IH (acc ++ [c]) l) as (ps & A & B & C); [cbn in *; lia|]. exists ps. split; [|auto]. now rewrite A, <- app_assoc.
Qed.
Lemma write_out_meaning : forall ev ps buf, write_out ev (map seg_of ps) buf = match meaning ev ps with Some r => Some (buf ++ r) | None => None end.
Proof.
  intros ev ps. induction ps as [|p ps IH]; intros buf; cbn; [now rewrite app_nil_r|]. destruct p as [t|w1 x w2]; cbn.
  - rewrite IH. destruct (meaning ev ps); [now rewrite app_assoc|reflexivity].
  - destruct (ev x); [|reflexivity]. rewrite IH. destruct (meaning ev ps); [now rewrite app_assoc|reflexivity].
Qed.
(** In every template, whatever its form, some tags are replaced and everything else is copied.  Which ones does not
    depend on the values, so a value is never evaluated again, even one that looks like a template. *)
Theorem C42_every_template_is_pieces : forall ex, exists ps, source ps = ex /\
  Forall (fun p => match p with Text _ => True | Tag w1 x w2 => blank w1 /\ blank w2 /\ x <> [] /\ ~ In newline x end) ps /\
  forall ev, evaluate_template ev ex = meaning ev ps.
Proof.
  intros ex. destruct (find_all_pieces (length ex) [] ex (le_n _)) as (ps & A & B & C).
  destruct ex as [|c ex].
  - exists []. repeat split. constructor.
  - exists ps. split; [exact A|]. split; [exact C|]. intros ev. unfold evaluate_template, segments. rewrite <- B, write_out_meaning.
    destruct (meaning ev ps); reflexivity.
Qed.
(** The evaluation fails iff some expression in it fails *)
Lemma meaning_none : forall ev ps, meaning ev ps = None <-> exists w1 x w2, In (Tag w1 x w2) ps /\ ev x = None.
Proof.
  intros ev ps. induction ps as [|p ps [IH1 IH2]].
  - split; [discriminate|intros (? & ? & ? & [] & _)].
  - cbn [meaning]. destruct (match p with Text t => Some t | Tag _ x _ => ev x end) as [v|] eqn:E.
    + split.
      * intros H. destruct (meaning ev ps); [discriminate|]. destruct (IH1 eq_refl) as (w1 & x & w2 & Hi & He). exists w1, x, w2. split; [now right|exact He].
      * intros (w1 & x & w2 & [-> |Hi] & He); [congruence|]. rewrite IH2; [reflexivity|]. exists w1, x, w2. auto.
    + split; [|reflexivity]. intros _. destruct p as [t|w1 x w2]; [discriminate|]. exists w1, x, w2. split; [now left|exact E].
Qed.
Theorem C42_fails_iff_an_expression_fails : forall ex, exists ps, source ps = ex /\
  forall ev, evaluate_template ev ex = None <-> exists w1 x w2, In (Tag w1 x w2) ps /\ ev x = None.
Proof.
  intros ex. destruct (C42_every_template_is_pieces ex) as (ps & A & _ & B). exists ps. split; [exact A|].
  intros ev. rewrite B. apply meaning_none.
Qed.

(** ** A template written in the usual way means what it says *)
Lemma find_all_text : forall t f acc r, length (t ++ r) <= f ->
  ~ occurs [lb; lb] t -> (forall t', t <> t' ++ [lb]) \/ r = [] -> 
  find_all f acc (t ++ r) = find_all f (acc ++ t) r.
Proof.
  induction t as [|c t IH]; intros f acc r Hf Ho Hl; [now rewrite app_nil_r|].
  destruct f as [|f]; [cbn in Hf; lia|]. cbn [app find_all].
  rewrite no_match.
  - rewrite IH; [rewrite <- app_assoc; cbn [app]|cbn in Hf; lia| |].
    + change (find_all f (acc ++ c :: t) r = find_all (S f) (acc ++ c :: t) r). apply find_all_fuel; cbn in Hf; rewrite app_length in Hf; lia.
    + intros (a & b & E). apply Ho. exists (c :: a), b. cbn. now rewrite E.
    + destruct Hl as [Hl|Hl]; [left|now right]. intros t' E. apply (Hl (c :: t')). cbn. now rewrite E.
  - intros r' E. injection E as -> E. destruct t as [|d t].
    + cbn in E. destruct Hl as [Hl| ->]; [now apply (Hl [])|discriminate].
    + cbn in E. injection E as -> _. apply Ho. exists [], t. reflexivity.
Qed.
Lemma find_all_plain : forall ev ps f acc buf, plain ps -> length (source ps) <= f ->
  write_out ev (find_all f acc (source ps)) buf = write_out ev (SText acc :: map seg_of ps) buf.
Proof.
  intros ev. induction ps as [|p ps IH]; intros f acc buf Hp Hf.
  - destruct f; cbn; now rewrite ?app_nil_r.
  - destruct p as [t|w1 x w2]; cbn [source written] in *.
    + destruct Hp as (H1 & H2 & H3). rewrite find_all_text; [|exact Hf|exact H1|].
      * rewrite IH; [|exact H3|rewrite app_length in Hf; lia]. cbn. now rewrite app_assoc.
      * destruct H2 as [-> |H2]; [now right|now left].
    + destruct Hp as (H1 & H2 & H3 & H4). change ([lb; lb] ++ w1 ++ x ++ w2 ++ [rb; rb]) with (written (Tag w1 x w2)) in *.
      pose proof (match_plain w1 x w2 (source ps) H1 H2 H3) as M. destruct f as [|f]; [cbn in Hf; lia|].
      assert (Ew : exists l', written (Tag w1 x w2) ++ source ps = lb :: l') by (eexists; reflexivity). destruct Ew as (l' & Ew).
      rewrite Ew in *. cbn [find_all]. rewrite M. pose proof (match_shorter _ _ _ M) as Ms. cbn [map seg_of write_out].
      destruct (ev x); [|reflexivity]. rewrite IH; [|exact H4|cbn in *; lia]. cbn. now rewrite app_nil_r.
Qed.
Theorem C42_template_means_what_it_says : forall ev ps, plain ps -> evaluate_template ev (source ps) = meaning ev ps.
Proof.
  intros ev ps H. pose proof (find_all_plain ev ps (length (source ps)) [] [] H (le_n _)) as E.
  cbn [write_out app] in E. rewrite write_out_meaning in E. unfold evaluate_template, segments.
  destruct (source ps) as [|c l] eqn:Es.
  - cbn in E. destruct (meaning ev ps); exact E.
  - rewrite E. destruct (meaning ev ps); reflexivity.
Qed.

(** Text without opening (or without closing) double braces is returned unchanged *)
Theorem C42_text_unchanged : forall ev t, ~ occurs [lb; lb] t \/ ~ occurs [rb; rb] t -> evaluate_template ev t = Some t.
Proof.
  intros ev t H. destruct (C42_every_template_is_pieces t) as (ps & E & _ & M). rewrite M. clear M. subst t.
  assert (O : forall w1 x w2, ~ In (Tag w1 x w2) ps).
  { intros w1 x w2 Hi. apply in_split in Hi as (l1 & l2 & ->).
    assert (Es : forall l1 l2, source (l1 ++ l2) = source l1 ++ source l2) by (clear; induction l1 as [|p l1 IH]; intros l2; cbn; [reflexivity|]; now rewrite IH, app_assoc).
    rewrite Es in H. cbn [source] in H. destruct H as [H|H]; apply H.
    - exists (source l1), ((w1 ++ x ++ w2 ++ [rb; rb]) ++ source l2). reflexivity.
    - exists (source l1 ++ [lb; lb] ++ w1 ++ x ++ w2), (source l2). cbn [written]. now rewrite <- !app_assoc. }
  clear H. induction ps as [|[t|w1 x w2] ps IH]; [reflexivity| |].
  - cbn. rewrite IH; [reflexivity|]. intros w1 x w2 Hi. apply (O w1 x w2). now right.
  - exfalso. apply (O w1 x w2). now left.
Qed.

(** EvaluateExpr accepts an expression with or without the braces: written in one tag it is unwrapped, and an
    expression without "{{" is taken as it is *)
Theorem C42_expression_unwrapped : forall w1 x w2, blank w1 -> plain_expr x -> blank w2 -> sanitize_expr (source [Tag w1 x w2]) = x.
Proof.
  intros w1 x w2 H1 H2 H3. unfold sanitize_expr. cbn [source]. pose proof (match_plain w1 x w2 [] H1 H2 H3) as M.
  assert (Ew : exists l', written (Tag w1 x w2) ++ [] = lb :: l') by (eexists; reflexivity). destruct Ew as (l' & Ew).
  rewrite Ew in *. cbn [length sanitize]. now rewrite M.
Qed.
Theorem C42_bare_expression_kept : forall x, ~ occurs [lb; lb] x -> sanitize_expr x = x.
Proof.
  intros x H. unfold sanitize_expr. generalize (length x) as f. 
  assert (G : forall l f ex, ~ occurs [lb; lb] l -> sanitize f ex l = ex).
  { clear. induction l as [|c l IH]; intros f ex H; destruct f as [|f]; try reflexivity. cbn [sanitize]. rewrite no_match.
    - apply IH. intros (a & b & E). apply H. exists (c :: a), b. cbn. now rewrite E.
    - intros r E. injection E as -> ->. apply H. now exists [], r. }
  intros f. now apply G.
Qed.

(** ** Templates that are read differently from what one might expect *)
(** An expression with a brace at its end: "{{ {a:1}}}" is the expression "{a:1" followed by the text "}" *)
Theorem C42_brace_at_the_end_refuted : segments (str "{{{'a':1}}}") = [SText []; SExpr (str "{'a':1"); SText (str "}")].
Proof. vm_compute. reflexivity. Qed.
(** "{" in front of a tag belongs to the expression *)
Theorem C42_brace_before_refuted : segments (str "{{{x}}") = [SText []; SExpr (str "{x"); SText []].
Proof. vm_compute. reflexivity. Qed.
(** an expression over several lines is text *)
Theorem C42_two_lines_refuted : forall ev, let t := str "{{ a +" ++ [newline] ++ str " b }}" in evaluate_template ev t = Some t.
Proof. intros ev. vm_compute. reflexivity. Qed.
(** an empty tag swallows the text up to the end of the next one *)
Theorem C42_empty_tag_refuted : segments (str "{{ }} and {{ x }}") = [SText []; SExpr (str "}} and {{ x"); SText []].
Proof. vm_compute. reflexivity. Qed.

(** * A concrete case *)
Definition case_ps : list piece := [Text (str "echo "); Tag (str " ") (str "inputs.name") (str " "); Text (str "-"); Tag [] (str "tasks.x") []; Text (str " { }")].
Example C42_case_plain : plain case_ps.
Proof.
  assert (D : forall s t, (fix has (l : bytes) := match l with c :: ((d :: _) as r) => (Ascii.eqb c s && Ascii.eqb d s) || has r | _ => false end) t = false -> ~ occurs [s; s] t).
  { intros s t H (a & b & ->). revert H. induction a as [|c a IH]; cbn; [now rewrite Ascii.eqb_refl|].
    destruct a as [|d a]; cbn in *; [now rewrite Ascii.eqb_refl, orb_true_r|]. intros H. apply orb_false_iff in H as [_ H]. now apply IH. }
  assert (P : forall x e, plain_expr x -> e = x -> plain_expr e) by (intros; now subst).
  assert (E : forall x, (match x with [] => false | c :: _ => negb (is_space c) end && match rev x with [] => false | c :: _ => negb (is_space c) && negb (Ascii.eqb c rb) end
     && negb (existsb (Ascii.eqb newline) x)) = true -> ~ occurs [rb; rb] x -> plain_expr x).
  { intros x H Ho. apply andb_prop in H as [H H3]. apply andb_prop in H as [H1 H2]. split; [|split; [|split]]; auto.
    - destruct x as [|c x]; [discriminate|]. exists c. split; [reflexivity|]. now apply negb_true_iff in H1.
    - destruct (rev x) as [|c y] eqn:Er; [discriminate|]. apply andb_prop in H2 as [H2 H4]. exists (rev y), c.
      split; [rewrite <- (rev_involutive x), Er; reflexivity|]. split; [now apply negb_true_iff in H2|]. intros ->. now rewrite Ascii.eqb_refl in H4.
    - intros Hi. apply negb_true_iff in H3. rewrite <- not_true_iff_false in H3. apply H3. apply existsb_exists. exists newline. split; [assumption|apply Ascii.eqb_refl]. }
  assert (T : forall t, match rev t with c :: _ => negb (Ascii.eqb c lb) | [] => true end = true -> forall t', t <> t' ++ [lb]).
  { intros t H t' ->. rewrite rev_app_distr in H. cbn in H. discriminate. }
  repeat split; try (right; apply T; reflexivity); try (left; reflexivity); try (apply D; reflexivity); try (apply E; [reflexivity|apply D; reflexivity]); repeat constructor.
Qed.
(** a value that looks like a template is not evaluated again *)
Example C42_case : evaluate_template (fun x => if list_eq_dec ascii_dec x (str "tasks.x") then Some (str "{{ y }}") else Some (str "joe")) (source case_ps)
  = Some (str "echo joe-{{ y }} { }").
Proof. vm_compute. reflexivity. Qed.
Example C42_case_fails : evaluate_template (fun x => if list_eq_dec ascii_dec x (str "tasks.x") then None else Some (str "joe")) (source case_ps) = None.
Proof. vm_compute. reflexivity. Qed.

Print Assumptions C42_every_template_is_pieces.
Print Assumptions C42_fails_iff_an_expression_fails.
Print Assumptions C42_template_means_what_it_says.
Print Assumptions C42_text_unchanged.
Print Assumptions C42_expression_unwrapped.
Print Assumptions C42_bare_expression_kept.
Print Assumptions C42_brace_at_the_end_refuted.
Print Assumptions C42_brace_before_refuted.
Print Assumptions C42_two_lines_refuted.
Print Assumptions C42_empty_tag_refuted.
