(** C78: which image references are accepted, letter by letter.  runtime/docker/reference.go:10-130.
    The grammar below is written from the comments of reference.go and the documentation of image names, without the
    regular expressions; it is proved to be the one of the model of parseRef (Creds.v). *)
From Coq Require Import List Ascii String Bool Lia NArith.
From Verif Require Import Types Regex Images Creds.
Import ListNotations.
Local Open Scope list_scope.
Local Open Scope nat_scope.

(* ------------------------------------------------------------------ *)
(** * Specification *)
Definition is_in (l : string) (c : ascii) : Prop := In c (list_ascii_of_string l).
Definition az := "abcdefghijklmnopqrstuvwxyz"%string.
Definition AZ := "ABCDEFGHIJKLMNOPQRSTUVWXYZ"%string.
Definition d09 := "0123456789"%string.
(** "a", "a-b", "A1": letters, digits and dashes; no dash first or last *)
Definition label (l : text) : Prop :=
  Forall (is_in (az ++ AZ ++ d09 ++ "-")) l /\
  (exists c r, l = c :: r /\ is_in (az ++ AZ ++ d09) c) /\ (exists r c, l = r ++ [c] /\ is_in (az ++ AZ ++ d09) c).
Fixpoint joined (sep : ascii) (l : list text) : text :=
  match l with [] => [] | [x] => x | x :: l => x ++ sep :: joined sep l end.
(** "my.registry.io:5000": labels with dots between them, perhaps a port *)
Definition registry_name (d : text) : Prop :=
  exists labels port, d = joined "." labels ++ port /\ labels <> [] /\ Forall label labels /\
    (port = [] \/ exists n, port = ":"%char :: n /\ n <> [] /\ Forall (is_in d09) n).
(** one dot, one or two underscores, any number of dashes *)
Definition separator (s : text) : Prop := s = ["."]%char \/ s = ["_"]%char \/ s = ["_"; "_"]%char \/ Forall (eq "-"%char) s.
Definition lower_word (w : text) : Prop := w <> [] /\ Forall (is_in (az ++ d09)) w.
(** "a", "foo_bar", "foo--bar", "a.b": words of small letters and digits with separators between them *)
Definition component (s : text) : Prop :=
  exists w more, s = w ++ concat (map (fun p : text * text => fst p ++ snd p) more) /\ lower_word w /\
    Forall (fun p => separator (fst p) /\ lower_word (snd p)) more.
Definition repository (p : text) : Prop := exists cs, p = joined "/" cs /\ cs <> [] /\ Forall component cs.
Definition image_name (s : text) : Prop := repository s \/ exists d p, s = d ++ "/"%char :: p /\ registry_name d /\ repository p.
(** at most 128 letters, digits, "_", "." and "-", the first not "." or "-" *)
Definition tag_name (t : text) : Prop :=
  List.length t <= 128 /\ Forall (is_in (az ++ AZ ++ d09 ++ "_.-")) t /\ exists c r, t = c :: r /\ is_in (az ++ AZ ++ d09 ++ "_") c.
(** "sha256:…": algorithm names, then at least 32 hexadecimal digits *)
Definition algorithm (w : text) : Prop := exists c r, w = c :: r /\ is_in (az ++ AZ) c /\ Forall (is_in (az ++ AZ ++ d09)) r.
Definition digest_text (g : text) : Prop :=
  exists a more h, g = a ++ concat (map (fun p : ascii * text => fst p :: snd p) more) ++ ":"%char :: h /\
    algorithm a /\ Forall (fun p => is_in "-_+." (fst p) /\ algorithm (snd p)) more /\
    32 <= List.length h /\ Forall (is_in (d09 ++ "abcdefABCDEF")) h.
(** an image reference: its name, tag and digest (empty: none) *)
Definition well_formed (s name tag dg : text) : Prop :=
  image_name name /\ (tag = [] \/ tag_name tag) /\ (dg = [] \/ digest_text dg) /\
  s = name ++ (match tag with [] => [] | _ => ":"%char :: tag end) ++ (match dg with [] => [] | _ => "@"%char :: dg end).

(* ------------------------------------------------------------------ *)
(** * The expressions describe it *)
Lemma class_eq (l : string) (p : ascii -> bool) :
  (forall a b c d e f g h, let x := Ascii a b c d e f g h in existsb (Ascii.eqb x) (list_ascii_of_string l) = p x) ->
  forall c, p c = true <-> is_in l c.
Proof.
  intros H [a b c d e f g h]. rewrite <- H. unfold is_in. rewrite existsb_exists. split.
  - intros (x & Hx & E). apply Ascii.eqb_eq in E. subst x. exact Hx.
  - intros Hx. exists (Ascii a b c d e f g h). split; [exact Hx|apply Ascii.eqb_refl].
Qed.
Ltac class := apply class_eq; intros [] [] [] [] [] [] [] []; vm_compute; reflexivity.
Lemma c_lowdig c : lowdig c = true <-> is_in (az ++ d09) c. Proof. revert c. class. Qed.
Lemma c_alnum c : alnum c = true <-> is_in (az ++ AZ ++ d09) c. Proof. revert c. class. Qed.
Lemma c_alpha c : alpha c = true <-> is_in (az ++ AZ) c. Proof. revert c. class. Qed.
Lemma c_digit c : digit c = true <-> is_in d09 c. Proof. revert c. class. Qed.
Lemma c_word c : word c = true <-> is_in (az ++ AZ ++ d09 ++ "_") c. Proof. revert c. class. Qed.
Lemma c_label c : (alnum c || Ascii.eqb c "-") = true <-> is_in (az ++ AZ ++ d09 ++ "-") c. Proof. revert c. class. Qed.
Lemma c_tag c : (word c || among ".-" c) = true <-> is_in (az ++ AZ ++ d09 ++ "_.-") c. Proof. revert c. class. Qed.
Lemma c_xdigit c : xdigit c = true <-> is_in (d09 ++ "abcdefABCDEF") c. Proof. revert c. class. Qed.
Lemma c_dot c : among "._" c = true <-> c = "."%char \/ c = "_"%char.
Proof. unfold among. cbn [list_ascii_of_string existsb]. rewrite !orb_true_iff, !Ascii.eqb_eq. intuition discriminate. Qed.
Lemma c_alg c : among "-_+." c = true <-> is_in "-_+." c. Proof. revert c. class. Qed.

Lemma lang_chr p s : lang (Chr p) s <-> exists c, s = [c] /\ p c = true.
Proof. split; [intros H; inversion H; subst; eexists; split; [reflexivity|assumption]|intros (c & -> & H); constructor; exact H]. Qed.
Lemma lang_lit c s : lang (lit c) s <-> s = [c].
Proof.
  unfold lit. rewrite lang_chr. split; [intros (x & -> & H); apply Ascii.eqb_eq in H; subst; reflexivity|].
  intros ->. exists c. split; [reflexivity|apply Ascii.eqb_refl].
Qed.
Lemma lang_seq a b s : lang (Seq a b) s <-> exists x y, s = x ++ y /\ lang a x /\ lang b y.
Proof. split; [intros H; inversion H; subst; eauto|intros (x & y & -> & A & B); constructor; assumption]. Qed.
Lemma lang_alt a b s : lang (Alt a b) s <-> lang a s \/ lang b s.
Proof. split; [intros H; inversion H; subst; auto|intros [H|H]; [apply l_alt1|apply l_alt2]; exact H]. Qed.
Lemma lang_eps s : lang Eps s <-> s = [].
Proof. split; [intros H; inversion H; reflexivity|intros ->; constructor]. Qed.
Lemma lang_opt r s : lang (opt r) s <-> lang r s \/ s = [].
Proof. unfold opt. rewrite lang_alt, lang_eps. tauto. Qed.
Lemma lang_cap n r s : lang (Cap n r) s <-> lang r s.
Proof. split; [intros H; inversion H; assumption|intros H; constructor; exact H]. Qed.
Lemma lang_star r s : lang (Star r) s <-> exists parts, s = concat parts /\ Forall (lang r) parts.
Proof.
  split.
  - intros H. remember (Star r) as st eqn:E. induction H; inversion E; subst.
    + exists []. split; [reflexivity|constructor].
    + destruct (IHlang2 eq_refl) as (parts & -> & F). exists (x :: parts). split; [reflexivity|constructor; assumption].
  - intros (parts & -> & F). induction F as [|x parts Hx F IH]; cbn; constructor; assumption.
Qed.
Lemma lang_plus r s : lang (plus r) s <-> exists parts, s = concat parts /\ parts <> [] /\ Forall (lang r) parts.
Proof.
  unfold plus. rewrite lang_seq. split.
  - intros (x & y & -> & Hx & Hy). apply lang_star in Hy as (parts & -> & F). exists (x :: parts).
    split; [reflexivity|]. split; [discriminate|constructor; assumption].
  - intros (parts & -> & Hne & F). destruct parts as [|x parts]; [congruence|]. inversion F as [|? ? Hx F']; subst. exists x, (concat parts).
    split; [reflexivity|]. split; [exact Hx|apply lang_star; eauto].
Qed.
Lemma lang_opt_plus r s : lang (opt (plus r)) s <-> exists parts, s = concat parts /\ Forall (lang r) parts.
Proof.
  rewrite lang_opt, lang_plus. split.
  - intros [(parts & E & _ & F)| ->]; [eauto|]. exists []. split; [reflexivity|constructor].
  - intros (parts & -> & F). destruct parts as [|x parts]; [right; reflexivity|]. left. exists (x :: parts).
    split; [reflexivity|]. split; [discriminate|exact F].
Qed.
Lemma chars (p : ascii -> bool) parts : Forall (lang (Chr p)) parts -> Forall (fun c => p c = true) (concat parts) /\ List.length (concat parts) = List.length parts.
Proof.
  induction 1 as [|x parts Hx F (IH & IL)]; [split; [constructor|reflexivity]|]. apply lang_chr in Hx as (c & -> & Hc).
  cbn. split; [constructor; assumption|lia].
Qed.
Lemma chars_of (p : ascii -> bool) s : Forall (fun c => p c = true) s -> exists parts, s = concat parts /\ Forall (lang (Chr p)) parts /\ (s <> [] -> parts <> []).
Proof.
  intros F. exists (map (fun c => [c]) s). split; [induction s; [reflexivity|inversion F; cbn; f_equal; auto]|].
  split; [|intros Hn; destruct s; [congruence|discriminate]].
  induction F; constructor; [constructor; assumption|assumption].
Qed.
Lemma lang_many p s : lang (Star (Chr p)) s <-> Forall (fun c => p c = true) s.
Proof.
  rewrite lang_star. split; [intros (parts & -> & F); exact (proj1 (chars p parts F))|].
  intros F. destruct (chars_of p s F) as (parts & E & G & _). eauto.
Qed.
Lemma lang_some p s : lang (plus (Chr p)) s <-> s <> [] /\ Forall (fun c => p c = true) s.
Proof.
  rewrite lang_plus. split.
  - intros (parts & -> & Hne & F). destruct (chars p parts F) as (A & B). split; [|exact A]. intros E. rewrite E in B. destruct parts; [congruence|discriminate].
  - intros (Hne & F). destruct (chars_of p s F) as (parts & E & G & N). exists parts. auto.
Qed.
Lemma lang_upto n p s : lang (upto n (Chr p)) s <-> List.length s <= n /\ Forall (fun c => p c = true) s.
Proof.
  revert s. induction n as [|n IH]; intros s; cbn [upto].
  - rewrite lang_eps. split; [intros ->; split; [auto|constructor]|]. intros (H & _). destruct s; [reflexivity|cbn in H; lia].
  - rewrite lang_opt, lang_seq. split.
    + intros [(x & y & -> & Hx & Hy)| ->]; [|split; [cbn; lia|constructor]]. apply lang_chr in Hx as (c & -> & Hc). apply IH in Hy as (A & B).
      cbn. split; [lia|constructor; assumption].
    + intros (A & B). destruct s as [|c s]; [right; reflexivity|]. left. inversion B; subst. exists [c], s. split; [reflexivity|].
      split; [constructor; assumption|apply IH; cbn in A; split; [lia|assumption]].
Qed.
Lemma lang_times n p s : lang (times n (Chr p) (Star (Chr p))) s <-> n <= List.length s /\ Forall (fun c => p c = true) s.
Proof.
  revert s. induction n as [|n IH]; intros s; cbn [times].
  - rewrite lang_many. split; [intros H; split; [lia|exact H]|intros (_ & H); exact H].
  - rewrite lang_seq. split.
    + intros (x & y & -> & Hx & Hy). apply lang_chr in Hx as (c & -> & Hc). apply IH in Hy as (A & B). cbn. split; [lia|constructor; assumption].
    + intros (A & B). destruct s as [|c s]; [cbn in A; lia|]. inversion B; subst. exists [c], s. split; [reflexivity|].
      split; [constructor; assumption|apply IH; cbn in A; split; [lia|assumption]].
Qed.
Lemma Forall_iff {A} (P Q : A -> Prop) l : (forall x, P x <-> Q x) -> (Forall P l <-> Forall Q l).
Proof. intros H. split; apply Forall_impl; intros x Hx; apply H; exact Hx. Qed.

Lemma lang_label s : lang domainComponentRe s <-> label s.
Proof.
  unfold domainComponentRe, label. rewrite lang_alt, lang_chr, lang_seq. split.
  - intros [(c & -> & Hc)|(x & y & -> & Hx & Hy)].
    + pose proof (proj1 (c_alnum c) Hc) as Hi.
      split; [constructor; [apply c_label; rewrite Hc; reflexivity|constructor]|]. split; [exists c, []; auto|exists [], c; auto].
    + apply lang_chr in Hx as (c & -> & Hc). apply lang_seq in Hy as (m & z & -> & Hm & Hz). apply lang_chr in Hz as (d & -> & Hd).
      apply lang_many in Hm. split; [|split].
      * cbn. constructor; [apply c_label; rewrite Hc; reflexivity|]. apply Forall_app. split.
        -- revert Hm. apply Forall_impl. intros a Ha. apply c_label. exact Ha.
        -- constructor; [apply c_label; rewrite Hd; reflexivity|constructor].
      * exists c, (m ++ [d]). split; [reflexivity|apply c_alnum; exact Hc].
      * exists (c :: m), d. split; [reflexivity|apply c_alnum; exact Hd].
  - intros (F & (c & r & E & Hc) & (r' & d & E' & Hd)). apply c_alnum in Hc, Hd. subst s.
    destruct r' as [|c' m].
    + injection E' as <- ->. left. exists c. auto.
    + right. injection E' as <- ->. exists [c], (m ++ [d]). split; [reflexivity|]. split; [constructor; exact Hc|].
      apply lang_seq. exists m, [d]. split; [reflexivity|]. split; [|constructor; exact Hd].
      apply lang_many. inversion F as [|? ? _ F']; subst. apply Forall_app in F' as (F' & _).
      revert F'. apply Forall_impl. intros a Ha. apply c_label. exact Ha.
Qed.

(** things with one letter between them *)
Lemma lang_joined r sep (Q : text -> Prop) s : (forall x, lang r x <-> Q x) ->
  (lang (Seq r (opt (plus (Seq (lit sep) r)))) s <-> exists l, s = joined sep l /\ l <> [] /\ Forall Q l).
Proof.
  intros HQ. rewrite lang_seq. split.
  - intros (x & y & -> & Hx & Hy). apply lang_opt_plus in Hy as (parts & -> & F).
    assert (G : exists l, concat parts = concat (map (cons sep) l) /\ Forall Q l).
    { clear Hx. induction F as [|p parts Hp F (l & IH & IF)]; [exists []; split; [reflexivity|constructor]|].
      apply lang_seq in Hp as (a & b & -> & Ha & Hb). apply lang_lit in Ha as ->. exists (b :: l). cbn. rewrite IH.
      split; [reflexivity|constructor; [apply HQ; exact Hb|exact IF]]. }
    destruct G as (l & -> & G). exists (x :: l). split; [|split; [discriminate|constructor; [apply HQ; exact Hx|exact G]]].
    clear. revert x. induction l as [|y l IH]; intros x; [cbn; apply app_nil_r|].
    change (joined sep (x :: y :: l)) with (x ++ sep :: joined sep (y :: l)). rewrite <- (IH y). reflexivity.
  - intros (l & -> & Hne & F). destruct l as [|x l]; [congruence|]. inversion F as [|? ? Hx F']; subst. clear Hne F. rename F' into F. revert x Hx.
    induction F as [|y l Hy F IH]; intros x Hx.
    + exists x, []. split; [symmetry; apply app_nil_r|]. split; [apply HQ; exact Hx|apply lang_opt_plus; exists []; split; [reflexivity|constructor]].
    + destruct (IH y Hy) as (a & b & E & Ha & Hb). exists x, (sep :: joined sep (y :: l)). split; [reflexivity|]. split; [apply HQ; exact Hx|].
      apply lang_opt_plus in Hb as (parts & -> & G). apply lang_opt_plus. exists ((sep :: a) :: parts). rewrite E.
      split; [reflexivity|]. constructor; [|exact G]. apply lang_seq. exists [sep], a. split; [reflexivity|].
      split; [apply lang_lit; reflexivity|exact Ha].
Qed.

Lemma lang_domain s : lang domainRe s <-> registry_name s.
Proof.
  unfold domainRe, registry_name. split.
  - intros H. apply lang_seq in H as (x & y & -> & Hx & Hy). apply lang_seq in Hy as (m & p & -> & Hm & Hp).
    assert (L : lang (Seq domainComponentRe (opt (plus (Seq (lit ".") domainComponentRe)))) (x ++ m)) by (apply lang_seq; eauto).
    apply (lang_joined _ _ label) in L as (l & E & Hne & F); [|apply lang_label].
    exists l, p. rewrite <- E, app_assoc. split; [reflexivity|]. split; [exact Hne|]. split; [exact F|].
    apply lang_opt in Hp as [Hp|Hp]; [right|left; exact Hp]. apply lang_seq in Hp as (c & n & -> & Hc & Hn). apply lang_lit in Hc as ->.
    apply lang_some in Hn as (Hn & G). exists n. split; [reflexivity|]. split; [exact Hn|]. revert G. apply Forall_impl. intros a. apply c_digit.
  - intros (l & p & -> & Hne & F & Hp).
    assert (L : lang (Seq domainComponentRe (opt (plus (Seq (lit ".") domainComponentRe)))) (joined "." l)).
    { apply (lang_joined _ _ label); [apply lang_label|]. eauto. }
    apply lang_seq in L as (x & m & -> & Hx & Hm). rewrite <- app_assoc. apply lang_seq. exists x, (m ++ p). split; [reflexivity|]. split; [exact Hx|].
    apply lang_seq. exists m, p. split; [reflexivity|]. split; [exact Hm|]. apply lang_opt. destruct Hp as [->|(n & -> & Hn & G)]; [right; reflexivity|left].
    apply lang_seq. exists [":"%char], n. split; [reflexivity|]. split; [apply lang_lit; reflexivity|]. apply lang_some. split; [exact Hn|].
    revert G. apply Forall_impl. intros a. apply c_digit.
Qed.

Lemma lang_separator s : lang separatorRe s <-> separator s.
Proof.
  unfold separatorRe, separator. rewrite !lang_alt, lang_chr, lang_seq.
  assert (D : lang (Star (lit "-")) s <-> Forall (eq "-"%char) s).
  { unfold lit. rewrite lang_many. apply Forall_iff. intros x. rewrite Ascii.eqb_eq. tauto. }
  rewrite D. split.
  - intros [(c & -> & H)|[(x & y & -> & Hx & Hy)|H]]; [apply c_dot in H as [->| ->]; auto| |auto].
    apply lang_lit in Hx as ->. apply lang_lit in Hy as ->. right. right. left. reflexivity.
  - intros [->|[->|[->|H]]].
    + left. eexists. split; reflexivity.
    + left. eexists. split; reflexivity.
    + right. left. exists ["_"%char], ["_"%char]. split; [reflexivity|]. split; apply lang_lit; reflexivity.
    + auto.
Qed.
Lemma lang_lower s : lang alphaNumericRe s <-> lower_word s.
Proof.
  unfold alphaNumericRe, lower_word. rewrite lang_some. split; intros (A & B); (split; [exact A|]); revert B; apply Forall_impl; intros c; apply c_lowdig.
Qed.
Lemma lang_component s : lang nameComponentRe s <-> component s.
Proof.
  unfold nameComponentRe, component. rewrite lang_seq. split.
  - intros (w & y & -> & Hw & Hy). apply lang_opt_plus in Hy as (parts & -> & F).
    assert (G : exists more : list (text * text), concat parts = concat (map (fun p => fst p ++ snd p) more) /\
                 Forall (fun p => separator (fst p) /\ lower_word (snd p)) more).
    { clear Hw. induction F as [|p parts Hp F (l & IH & IF)]; [exists []; split; [reflexivity|constructor]|].
      apply lang_seq in Hp as (a & b & -> & Ha & Hb). exists ((a, b) :: l). cbn. rewrite IH. split; [reflexivity|].
      constructor; [split; [apply lang_separator; exact Ha|apply lang_lower; exact Hb]|exact IF]. }
    destruct G as (more & -> & G). exists w, more. split; [reflexivity|]. split; [apply lang_lower; exact Hw|exact G].
  - intros (w & more & -> & Hw & F). exists w, (concat (map (fun p : text * text => fst p ++ snd p) more)). split; [reflexivity|].
    split; [apply lang_lower; exact Hw|]. apply lang_opt_plus. exists (map (fun p : text * text => fst p ++ snd p) more). split; [reflexivity|].
    induction F as [|[a b] more (Ha & Hb) F IH]; constructor; [|exact IH]. apply lang_seq. exists a, b. split; [reflexivity|].
    split; [apply lang_separator; exact Ha|apply lang_lower; exact Hb].
Qed.
Lemma lang_path s : lang pathRe s <-> repository s.
Proof. unfold pathRe, repository. apply lang_joined. exact lang_component. Qed.
Lemma lang_name s : lang nameRe s <-> image_name s.
Proof.
  unfold nameRe, image_name. rewrite lang_seq. split.
  - intros (x & p & -> & Hx & Hp). apply lang_path in Hp. apply lang_opt in Hx as [Hx| ->]; [|left; exact Hp].
    apply lang_seq in Hx as (d & y & -> & Hd & Hy). apply lang_lit in Hy as ->. right. exists d, p. rewrite <- app_assoc.
    split; [reflexivity|]. split; [apply lang_domain; exact Hd|exact Hp].
  - intros [Hp|(d & p & -> & Hd & Hp)].
    + exists [], s. split; [reflexivity|]. split; [apply lang_opt; right; reflexivity|apply lang_path; exact Hp].
    + exists (d ++ ["/"%char]), p. rewrite <- app_assoc. split; [reflexivity|]. split; [|apply lang_path; exact Hp].
      apply lang_opt. left. apply lang_seq. exists d, ["/"%char]. split; [reflexivity|]. split; [apply lang_domain; exact Hd|apply lang_lit; reflexivity].
Qed.
Lemma lang_tag s : lang tagRe s <-> tag_name s.
Proof.
  unfold tagRe, tag_name. rewrite lang_seq. split.
  - intros (x & y & -> & Hx & Hy). apply lang_chr in Hx as (c & -> & Hc). apply lang_upto in Hy as (A & B). cbn. split; [lia|].
    split; [constructor; [apply c_tag; rewrite Hc; reflexivity|revert B; apply Forall_impl; intros a; apply c_tag]|].
    exists c, y. split; [reflexivity|apply c_word; exact Hc].
  - intros (A & B & c & r & -> & Hc). exists [c], r. split; [reflexivity|]. split; [constructor; apply c_word; exact Hc|].
    apply lang_upto. cbn in A. split; [lia|]. inversion B as [|? ? _ B']; subst. revert B'. apply Forall_impl. intros a. apply c_tag.
Qed.
Lemma lang_algorithm s : (exists x y, s = x ++ y /\ lang (Chr alpha) x /\ lang (Star (Chr alnum)) y) <-> algorithm s.
Proof.
  unfold algorithm. split.
  - intros (x & y & -> & Hx & Hy). apply lang_chr in Hx as (c & -> & Hc). apply lang_many in Hy. exists c, y. split; [reflexivity|].
    split; [apply c_alpha; exact Hc|]. revert Hy. apply Forall_impl. intros a. apply c_alnum.
  - intros (c & r & -> & Hc & F). exists [c], r. split; [reflexivity|]. split; [constructor; apply c_alpha; exact Hc|].
    apply lang_many. revert F. apply Forall_impl. intros a. apply c_alnum.
Qed.
Lemma lang_digest s : lang digestRe s <-> digest_text s.
Proof.
  unfold digestRe, digest_text. split.
  - intros H. apply lang_seq in H as (x & y & -> & Hx & Hy). apply lang_seq in Hy as (y' & z & -> & Hy & Hz).
    apply lang_seq in Hz as (m & z' & -> & Hm & Hz). apply lang_seq in Hz as (c & h & -> & Hc & Hh). apply lang_lit in Hc as ->.
    apply lang_times in Hh as (Hl & Hh). apply lang_star in Hm as (parts & -> & F).
    assert (G : exists more : list (ascii * text), concat parts = concat (map (fun p => fst p :: snd p) more) /\
                 Forall (fun p => is_in "-_+." (fst p) /\ algorithm (snd p)) more).
    { clear - F. induction F as [|p parts Hp F (l & IH & IF)]; [exists []; split; [reflexivity|constructor]|].
      apply lang_seq in Hp as (a & b & -> & Ha & Hb). apply lang_chr in Ha as (c & -> & Hc). apply lang_seq in Hb.
      apply lang_algorithm in Hb. exists ((c, b) :: l). cbn. rewrite IH. split; [reflexivity|].
      constructor; [split; [apply c_alg; exact Hc|exact Hb]|exact IF]. }
    destruct G as (more & -> & G). exists (x ++ y'), more, h. rewrite <- app_assoc. split; [reflexivity|].
    split; [apply lang_algorithm; eauto|]. split; [exact G|]. split; [exact Hl|]. revert Hh. apply Forall_impl. intros a. apply c_xdigit.
  - intros (a & more & h & -> & Ha & F & Hl & Hh). apply lang_algorithm in Ha as (x & y & -> & Hx & Hy). rewrite <- app_assoc.
    apply lang_seq. exists x. eexists. split; [reflexivity|]. split; [exact Hx|].
    apply lang_seq. exists y. eexists. split; [reflexivity|]. split; [exact Hy|].
    apply lang_seq. exists (concat (map (fun p : ascii * text => fst p :: snd p) more)), (":"%char :: h). split; [reflexivity|]. split.
    + apply lang_star. exists (map (fun p : ascii * text => fst p :: snd p) more). split; [reflexivity|]. clear - F.
      induction F as [|[c w] more (Hc & Hw) F IH]; constructor; [|exact IH]. cbn. apply lang_seq. exists [c], w. split; [reflexivity|].
      split; [constructor; apply c_alg; exact Hc|]. apply lang_seq. apply lang_algorithm. exact Hw.
    + apply lang_seq. exists [":"%char], h. split; [reflexivity|]. split; [apply lang_lit; reflexivity|]. apply lang_times. split; [exact Hl|].
      revert Hh. apply Forall_impl. intros c. apply c_xdigit.
Qed.
Lemma lang_reference s : lang referenceRe s <-> exists name tag dg, well_formed s name tag dg.
Proof.
  unfold referenceRe, well_formed. split.
  - intros H. apply lang_seq in H as (n & y & -> & Hn & Hy). apply lang_cap, lang_name in Hn. apply lang_seq in Hy as (t & g & -> & Ht & Hg).
    exists n. apply lang_opt in Ht as [Ht| ->]; apply lang_opt in Hg as [Hg| ->].
    + apply lang_seq in Ht as (c & t' & -> & Hc & Ht). apply lang_lit in Hc as ->. apply lang_cap, lang_tag in Ht.
      apply lang_seq in Hg as (c & g' & -> & Hc & Hg). apply lang_lit in Hc as ->. apply lang_cap, lang_digest in Hg.
      exists t', g'. split; [exact Hn|]. split; [auto|]. split; [auto|]. destruct Ht as (_ & _ & c & r & -> & _).
      destruct Hg as (a & more & h & -> & (c' & r' & -> & _) & _). reflexivity.
    + apply lang_seq in Ht as (c & t' & -> & Hc & Ht). apply lang_lit in Hc as ->. apply lang_cap, lang_tag in Ht.
      exists t', []. split; [exact Hn|]. split; [auto|]. split; [auto|]. destruct Ht as (_ & _ & c & r & -> & _). reflexivity.
    + apply lang_seq in Hg as (c & g' & -> & Hc & Hg). apply lang_lit in Hc as ->. apply lang_cap, lang_digest in Hg.
      exists [], g'. split; [exact Hn|]. split; [auto|]. split; [auto|].
      destruct Hg as (a & more & h & -> & (c' & r' & -> & _) & _). reflexivity.
    + exists [], []. split; [exact Hn|]. auto.
  - intros (n & t & g & Hn & Ht & Hg & ->). apply lang_seq. exists n. eexists. split; [reflexivity|].
    split; [apply lang_cap, lang_name; exact Hn|]. apply lang_seq. eexists. eexists. split; [reflexivity|]. split.
    + apply lang_opt. destruct Ht as [->|Ht]; [right; reflexivity|left]. destruct t as [|c t]; [destruct Ht as (_ & _ & c & r & E & _); discriminate|].
      apply lang_seq. exists [":"%char], (c :: t). split; [reflexivity|]. split; [apply lang_lit; reflexivity|apply lang_cap, lang_tag; exact Ht].
    + apply lang_opt. destruct Hg as [->|Hg]; [right; reflexivity|left].
      destruct g as [|c g]; [destruct Hg as (a & more & h & E & (c' & r' & -> & _) & _); discriminate|].
      apply lang_seq. exists ["@"%char], (c :: g). split; [reflexivity|]. split; [apply lang_lit; reflexivity|apply lang_cap, lang_digest; exact Hg].
Qed.

(* ------------------------------------------------------------------ *)
(** * A reference has one reading *)
Lemma without r c s : lang r s -> letters (fun x => x <> c) r -> ~ In c s.
Proof. intros H L Hin. pose proof (lang_letters _ _ _ H L) as F. rewrite Forall_forall in F. exact (F _ Hin eq_refl). Qed.
Ltac no_letter := cbn [letters upto times referenceRe nameRe pathRe domainRe domainComponentRe nameComponentRe alphaNumericRe separatorRe opt plus lit];
  repeat split; intros c Hc ->; vm_compute in Hc; discriminate.
Lemma name_no_at s : image_name s -> ~ In "@"%char s.
Proof. intros H. apply lang_name in H. apply (without _ _ _ H). no_letter. Qed.
Lemma repository_no_colon s : repository s -> ~ In ":"%char s.
Proof. intros H. apply lang_path in H. apply (without _ _ _ H). no_letter. Qed.
Lemma name_colon s a b : image_name s -> s = a ++ ":"%char :: b -> In "/"%char b.
Proof.
  intros [H|(d & p & -> & Hd & Hp)] E.
  - exfalso. apply (repository_no_colon _ H). rewrite E. apply in_or_app. right. left. reflexivity.
  - apply app_eq_app in E as (l & [(-> & E)|(-> & E)]).
    + destruct l as [|c l]; [discriminate|]. injection E as <- ->. apply in_or_app. right. left. reflexivity.
    + exfalso. apply (repository_no_colon _ Hp). destruct l as [|c l]; [discriminate|]. injection E as _ ->. apply in_or_app. right. left. reflexivity.
Qed.
Lemma tag_no t c : tag_name t -> ~ is_in (az ++ AZ ++ d09 ++ "_.-") c -> ~ In c t.
Proof. intros (_ & F & _) H Hin. rewrite Forall_forall in F. exact (H (F _ Hin)). Qed.
Lemma digest_no_slash g : digest_text g -> ~ In "/"%char g.
Proof.
  intros H. apply lang_digest in H. apply (without _ _ _ H). unfold digestRe. cbn [letters lit].
  split; [intros c Hc ->; vm_compute in Hc; discriminate|]. split; [intros c Hc ->; vm_compute in Hc; discriminate|].
  split; [split; [|split]; intros c Hc ->; vm_compute in Hc; discriminate|]. split; [intros c Hc ->; vm_compute in Hc; discriminate|].
  cbn [times letters]. repeat split; intros c Hc ->; vm_compute in Hc; discriminate.
Qed.
Lemma tail_no_slash s n t g : well_formed s n t g ->
  ~ In "/"%char ((match t with [] => [] | _ => ":"%char :: t end) ++ (match g with [] => [] | _ => "@"%char :: g end)).
Proof.
  intros (_ & Ht & Hg & _) Hin. apply in_app_or in Hin as [Hin|Hin].
  - destruct Ht as [->|Ht]; [exact Hin|]. destruct t as [|c t]; [exact Hin|]. destruct Hin as [Hin|Hin]; [discriminate|].
    revert Hin. apply (tag_no _ _ Ht). unfold is_in. cbn. intuition discriminate.
  - destruct Hg as [->|Hg]; [exact Hin|]. destruct g as [|c g]; [exact Hin|]. destruct Hin as [Hin|Hin]; [discriminate|].
    exact (digest_no_slash _ Hg Hin).
Qed.
Lemma name_longer s n t g n' t' g' l : well_formed s n t g -> well_formed s n' t' g' -> n' = n ++ l -> l = [].
Proof.
  intros W W' ->. pose proof (tail_no_slash _ _ _ _ W) as Hs. destruct W as (Hn & Ht & Hg & ->). destruct W' as (Hn' & _ & _ & E).
  rewrite <- app_assoc in E. apply app_inv_head in E. destruct l as [|c l]; [reflexivity|exfalso].
  assert (Hc : c = ":"%char \/ c = "@"%char).
  { destruct t; [destruct g; [discriminate|]|]; cbn in E; injection E as <- _; auto. }
  destruct Hc as [->| ->].
  - apply Hs. rewrite E. apply in_or_app. left. right. exact (name_colon _ n l Hn' eq_refl).
  - apply (name_no_at _ Hn'). apply in_or_app. right. left. reflexivity.
Qed.
Lemma one_reading s n t g n' t' g' : well_formed s n t g -> well_formed s n' t' g' -> n = n' /\ t = t'.
Proof.
  intros W W'. assert (En : n = n').
  { pose proof W as (_ & _ & _ & E). pose proof W' as (_ & _ & _ & E'). rewrite E in E'.
    apply app_eq_app in E' as (l & [(-> & _)|(-> & _)]).
    - rewrite (name_longer _ _ _ _ _ _ _ l W' W eq_refl). apply app_nil_r.
    - rewrite (name_longer _ _ _ _ _ _ _ l W W' eq_refl). symmetry. apply app_nil_r. }
  split; [exact En|]. subst n'. destruct W as (_ & Ht & _ & E). destruct W' as (_ & Ht' & _ & E'). rewrite E in E'.
  apply app_inv_head in E'. assert (At : forall u, u = [] \/ tag_name u -> ~ In "@"%char u).
  { intros u [->|Hu]; [intros []|]. apply (tag_no _ _ Hu). unfold is_in. cbn. intuition discriminate. }
  pose proof (At _ Ht) as A. pose proof (At _ Ht') as A'. clear - A A' E'.
  destruct t as [|c t]; destruct t' as [|c' t']; [reflexivity|destruct g; discriminate|destruct g'; discriminate|].
  cbn [app] in E'. injection E' as -> E'. f_equal.
  apply app_eq_app in E' as (l & [(-> & E)|(-> & E)]).
  - destruct l as [|x l]; [apply app_nil_r|]. destruct g'; [discriminate|]. injection E as <- _. exfalso. apply A. right. apply in_or_app. right. left. reflexivity.
  - destruct l as [|x l]; [symmetry; apply app_nil_r|]. destruct g; [discriminate|]. injection E as <- _. exfalso. apply A'. right. apply in_or_app. right. left. reflexivity.
Qed.
Lemma before_first_slash d p d' p' : ~ In "/"%char d -> ~ In "/"%char d' -> d ++ "/"%char :: p = d' ++ "/"%char :: p' -> d = d' /\ p = p'.
Proof.
  intros H H' E. pose proof (before_slash_app d p H) as B. rewrite E, (before_slash_app d' p' H') in B. injection B as ->.
  split; [reflexivity|]. apply app_inv_head in E. injection E as ->. reflexivity.
Qed.

(** C78: what parsing an image reference answers, for every text. *)
Theorem C78_parsed : forall s,
  (forall name tag dg, well_formed s name tag dg ->
     if Nat.leb (List.length name) 255 then
       (forall d p, name = d ++ "/"%char :: p -> registry_name d -> repository p -> parse_ref s = Some (mkRef d p tag)) /\
       ((forall d p, registry_name d -> repository p -> name <> d ++ "/"%char :: p) -> parse_ref s = Some (mkRef [] name tag))
     else parse_ref s = None) /\
  ((forall name tag dg, ~ well_formed s name tag dg) -> parse_ref s = None).
Proof.
  intros s. split.
  - intros name tag dg W. assert (L : lang referenceRe s) by (apply lang_reference; eauto). apply find_groups_lang in L as (k & E).
    unfold parse_ref. rewrite E. destruct (reference_parts s k E) as (tg & g & Es & Ln & Ht & Hd).
    assert (W' : exists g', well_formed s (group 1 k) (group 2 k) g').
    { assert (Hh : g = [] \/ exists h, g = "@"%char :: h /\ digest_text h) by (destruct Hd as [->|(h & -> & Lh)]; [left; reflexivity|right; exists h; split; [reflexivity|apply lang_digest; exact Lh]]).
      assert (Ht' : (tg = [] /\ group 2 k = []) \/ tg = ":"%char :: group 2 k /\ tag_name (group 2 k)) by (destruct Ht as [Ht|(-> & Lt)]; [left; exact Ht|right; split; [reflexivity|apply lang_tag; exact Lt]]).
      apply lang_name in Ln. exists (match g with [] => [] | _ :: h => h end). split; [exact Ln|].
      split; [destruct Ht' as [(_ & ->)|(_ & Lt)]; auto|]. split; [destruct Hh as [->|(h & -> & Lh)]; auto|]. rewrite Es. f_equal.
      f_equal.
      - destruct Ht' as [(-> & ->)|(-> & (_ & _ & c & r & -> & _))]; reflexivity.
      - destruct Hh as [->|(h & -> & (a & more & x & -> & (c & r & -> & _) & _))]; reflexivity. }
    destruct W' as (g' & W'). destruct (one_reading _ _ _ _ _ _ _ W' W) as (En & Et). rewrite En, Et in *. clear W' g'.
    destruct (Nat.leb_spec (List.length name) 255) as [Hl|Hl].
    + assert (Hl' : Nat.ltb 255 (List.length name) = false) by (apply Nat.ltb_ge; exact Hl). rewrite Hl'.
      destruct (name_found _ Ln) as (k' & E'). rewrite E'.
      destruct (name_parts _ _ E') as [(A & B & _ & C)|(Ld & Lp & Eq)].
      * split.
        -- intros d p Ed Hd' Hp'. exfalso. apply (C d p); [apply lang_domain; exact Hd'|apply lang_path; exact Hp'|exact Ed].
        -- intros _. rewrite A, B. reflexivity.
      * split.
        -- intros d p Ed Hd' Hp'. assert (X : group 1 k' ++ "/"%char :: group 2 k' = d ++ "/"%char :: p) by congruence.
           apply before_first_slash in X as (-> & ->); [reflexivity|exact (domain_no_slash _ Ld)|apply domain_no_slash, lang_domain; exact Hd'].
        -- intros C. exfalso. apply (C (group 1 k') (group 2 k')); [apply lang_domain; exact Ld|apply lang_path; exact Lp|exact Eq].
    + assert (Hl' : Nat.ltb 255 (List.length name) = true) by (apply Nat.ltb_lt; exact Hl). rewrite Hl'. reflexivity.
  - intros N. unfold parse_ref. destruct (find_groups referenceRe s) as [k|] eqn:E; [exfalso|reflexivity].
    assert (L : lang referenceRe s) by (apply find_groups_lang; eauto). apply lang_reference in L as (n & t & g & W). exact (N n t g W).
Qed.
Print Assumptions C78_parsed.

(** the documented forms *)
Definition parsed (s : string) : option (string * string * string) :=
  option_map (fun r => (string_of_list_ascii (ref_domain r), string_of_list_ascii (ref_path r), string_of_list_ascii (ref_tag r))) (parse_ref (t_ s)).
Example C78_well_formed : exists name tag dg, well_formed (t_ "my-reg.io:5000/team/foo__bar-1.2:v1.0_x-3@sha256:0123456789abcdef0123456789abcdef") name tag dg /\
  parsed "my-reg.io:5000/team/foo__bar-1.2:v1.0_x-3@sha256:0123456789abcdef0123456789abcdef" = Some ("my-reg.io:5000", "team/foo__bar-1.2", "v1.0_x-3")%string.
Proof.
  assert (L : lang referenceRe (t_ "my-reg.io:5000/team/foo__bar-1.2:v1.0_x-3@sha256:0123456789abcdef0123456789abcdef")).
  { apply find_groups_lang. eexists. vm_compute. reflexivity. }
  apply lang_reference in L as (n & t & g & W). exists n, t, g. split; [exact W|]. vm_compute. reflexivity.
Qed.
Example C78_refused : map parsed ["foo___bar"; "foo._bar"; "-a"; "a-"; "a/"; "a:"; "a@b"; "a:.x"; "A/B"; "a//b"]%string =
  [None; None; None; None; None; None; None; None; None; None].
Proof. vm_compute. reflexivity. Qed.
