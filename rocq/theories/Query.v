(** C88: what a search means.  datastore/postgres/postgres.go:1661-1675 (parseQuery), used by GetJobs (1037-1155), GetTaskLogParts
    (963-995) and GetJobLogParts (997-1035); the query comes from the request's parameter q (api.go:520, 463, 768).
    Simplified: white space is that of ASCII (strings.Fields also splits at U+0085, U+00A0 and the other spaces of Unicode). *)
From Coq Require Import Ascii.
From Verif Require Import Types World Listing.
Open Scope string_scope.
Open Scope list_scope.

(* ------------------------------------------------------------------ *)
(** * Specification *)
Definition is_space (c : ascii) : bool := existsb (Ascii.eqb c) [" "; "009"; "010"; "011"; "012"; "013"]%char.
Fixpoint all_of (p : ascii -> bool) (s : string) : bool := match s with "" => true | String c s => p c && all_of p s end.
Definition blank (s : string) : Prop := all_of is_space s = true.
Definition word (s : string) : Prop := s <> "" /\ all_of (fun c => negb (is_space c)) s = true.
(** [laid_out q ws]: the text [q] is the words [ws], with white space before, between and after them *)
Definition ends (s : string) : Prop := match s with "" => True | String c _ => is_space c = true end.
Inductive laid_out : string -> list string -> Prop :=
| lo_end sp : blank sp -> laid_out sp []
| lo_word sp w rest ws : blank sp -> word w -> ends rest -> laid_out rest ws -> laid_out (sp ++ w ++ rest)%string (w :: ws).
(** [listed x xs]: [x] is the list [xs], separated by commas *)
Inductive listed : string -> list string -> Prop :=
| li_one x : all_of (fun c => negb (Ascii.eqb c ",")) x = true -> listed x [x]
| li_cons x r xs : all_of (fun c => negb (Ascii.eqb c ",")) x = true -> listed r xs -> listed (x ++ "," ++ r)%string (x :: xs).
(** [means ws terms tags]: "tag:x" asks for the tag x, "tags:x,y,.." for each of them, every other word is to be found in the
    text *)
Inductive means : list string -> list string -> list string -> Prop :=
| me_nil : means [] [] []
| me_tag x ws ts gs : means ws ts gs -> means (("tag:" ++ x)%string :: ws) ts (x :: gs)
| me_tags x xs ws ts gs : listed x xs -> means ws ts gs -> means (("tags:" ++ x)%string :: ws) ts (xs ++ gs)
| me_term w ws ts gs : prefix "tag:" w = false -> prefix "tags:" w = false -> means ws ts gs -> means (w :: ws) (w :: ts) gs.

(* ------------------------------------------------------------------ *)
(** * Model *)
(** strings.Fields *)
Definition flush (cur : string) : list string := match cur with "" => [] | _ => [cur] end.
Fixpoint fields (s cur : string) : list string :=
  match s with
  | "" => flush cur
  | String c s => if is_space c then flush cur ++ fields s "" else fields s (cur ++ String c "")%string
  end.
(** strings.Split(s, ",") *)
Fixpoint split_commas (s cur : string) : list string :=
  match s with "" => [cur] | String c s => if Ascii.eqb c "," then cur :: split_commas s "" else split_commas s (cur ++ String c "")%string end.
(** strings.TrimPrefix, for a string that has it *)
Fixpoint drop (n : nat) (s : string) : string := match n, s with S n, String _ s => drop n s | _, _ => s end.
(** postgres.go:1661-1675 *)
Fixpoint sort_out (parts : list string) : list string * list string :=
  match parts with
  | [] => ([], [])
  | p :: parts =>
      let (terms, tags) := sort_out parts in
      if prefix "tag:" p then (terms, drop 4 p :: tags)
      else if prefix "tags:" p then (terms, split_commas (drop 5 p) "" ++ tags)
      else (p :: terms, tags)
  end.
Definition parse_query (q : string) : string * list string :=
  let (terms, tags) := sort_out (fields q "") in (String.concat " " terms, tags).

(* ------------------------------------------------------------------ *)
(** * Proofs *)
Arguments is_space : simpl never.
Lemma app_nil_s s : (s ++ "")%string = s.
Proof. induction s as [|c s IH]; cbn; [reflexivity|now rewrite IH]. Qed.
Lemma app_assoc_s a b c : ((a ++ b) ++ c)%string = (a ++ b ++ c)%string.
Proof. induction a as [|x a IH]; cbn; [reflexivity|now rewrite IH]. Qed.
Lemma fields_blank sp : forall rest, blank sp -> fields (sp ++ rest)%string "" = fields rest "".
Proof.
  unfold blank. induction sp as [|c sp IH]; intros rest H; [reflexivity|]. cbn in *. apply andb_true_iff in H. destruct H as (H1 & H2). rewrite H1. cbn. auto.
Qed.
Lemma fields_word w : forall cur rest, all_of (fun c => negb (is_space c)) w = true -> fields (w ++ rest)%string cur = fields rest (cur ++ w)%string.
Proof.
  induction w as [|c w IH]; intros cur rest H; [cbn; now rewrite app_nil_s|]. cbn in *. apply andb_true_iff in H. destruct H as (H1 & H2).
  apply negb_true_iff in H1. rewrite H1, IH by exact H2. f_equal. now rewrite app_assoc_s.
Qed.
Lemma flush_word w : w <> "" -> flush w = [w].
Proof. destruct w; [congruence|reflexivity]. Qed.
Lemma fields_after rest cur : ends rest -> cur <> "" -> fields rest cur = cur :: fields rest "".
Proof.
  destruct rest as [|c rest]; cbn; intros H Hc; [apply flush_word; exact Hc|]. rewrite H. now rewrite flush_word.
Qed.
Lemma laid_out_fields q ws : laid_out q ws -> fields q "" = ws.
Proof.
  induction 1 as [sp B|sp w rest ws B (W1 & W2) E _ IH].
  - rewrite <- (app_nil_s sp). now rewrite fields_blank.
  - rewrite fields_blank by exact B. rewrite fields_word by exact W2. cbn [append]. rewrite fields_after by assumption. now rewrite IH.
Qed.
(** every text is laid out in one way *)
Lemma lay s : forall cur, all_of (fun c => negb (is_space c)) cur = true ->
  exists ws, fields s cur = ws /\ laid_out (cur ++ s)%string ws.
Proof.
  induction s as [|c s IH]; intros cur Hc.
  - exists (flush cur). split; [reflexivity|]. rewrite app_nil_s. destruct cur as [|x cur]; [apply lo_end; reflexivity|].
    cbn [flush]. rewrite <- (app_nil_s (String x cur)) at 1. apply (lo_word "" (String x cur) "" []); [reflexivity|split; [discriminate|exact Hc]|exact I|apply lo_end; reflexivity].
  - cbn [fields]. destruct (is_space c) eqn:E.
    + destruct (IH "" eq_refl) as (ws & E1 & L). exists (flush cur ++ ws). split; [now rewrite E1|].
      assert (L' : laid_out (String c s) ws).
      { cbn [append] in L. clear - E L. inversion L as [sp B|sp w rest ws' B W En L']; subst.
        - apply lo_end. unfold blank in *. cbn. now rewrite E.
        - change (String c (sp ++ w ++ rest)) with (String c sp ++ w ++ rest)%string. apply lo_word; try assumption. unfold blank in *. cbn. now rewrite E. }
      destruct cur as [|x cur]; [exact L'|]. cbn [flush app]. change (String x cur ++ String c s)%string with ("" ++ String x cur ++ String c s)%string.
      apply lo_word; [reflexivity|split; [discriminate|exact Hc]|exact E|exact L'].
    + destruct (IH (cur ++ String c "")%string) as (ws & E1 & L).
      { clear - Hc E. induction cur as [|x cur IH]; cbn in *; [now rewrite E|]. apply andb_true_iff in Hc. destruct Hc as (-> & Hc). cbn. auto. }
      exists ws. split; [exact E1|]. rewrite app_assoc_s in L. exact L.
Qed.
Lemma drop_app a s : drop (String.length a) (a ++ s)%string = s.
Proof. induction a as [|c a IH]; [now destruct s|]. exact IH. Qed.
Lemma prefix_app a s : prefix a (a ++ s)%string = true.
Proof. induction a as [|c a IH]; cbn; [now destruct s|]. destruct (ascii_dec c c); [exact IH|congruence]. Qed.
Lemma prefix_inv a : forall s, prefix a s = true -> s = (a ++ drop (String.length a) s)%string.
Proof.
  induction a as [|c a IH]; intros s H; [now destruct s|]. destruct s as [|d s]; [discriminate|]. cbn in H. destruct (ascii_dec c d) as [->|]; [|discriminate].
  cbn. f_equal. now apply IH.
Qed.
Lemma split_listed x xs : listed x xs -> forall cur, split_commas x cur = match xs with y :: ys => (cur ++ y)%string :: ys | [] => [] end.
Proof.
  assert (N : forall y, all_of (fun c => negb (Ascii.eqb c ",")) y = true -> forall cur rest, split_commas (y ++ rest)%string cur = split_commas rest (cur ++ y)%string).
  { induction y as [|c y IH]; intros Hy cur rest; [cbn; now rewrite app_nil_s|]. cbn in *. apply andb_true_iff in Hy. destruct Hy as (H1 & H2). apply negb_true_iff in H1.
    rewrite H1, IH by exact H2. f_equal. now rewrite app_assoc_s. }
  induction 1 as [y Hy|y r ys Hy _ IH]; intros cur.
  - rewrite <- (app_nil_s y) at 1. rewrite N by exact Hy. reflexivity.
  - rewrite N by exact Hy. cbn [append split_commas]. change (Ascii.eqb "," ",") with true. cbv iota. rewrite IH. destruct ys; reflexivity.
Qed.
Lemma listed_exists s : forall cur, all_of (fun c => negb (Ascii.eqb c ",")) cur = true -> listed (cur ++ s)%string (split_commas s cur).
Proof.
  induction s as [|c s IH]; intros cur Hc; [rewrite app_nil_s; now constructor|]. cbn [split_commas]. destruct (Ascii.eqb_spec c ",") as [->|Hn].
  - apply (li_cons cur s (split_commas s "")); [exact Hc|apply (IH "" eq_refl)].
  - specialize (IH (cur ++ String c "")%string). rewrite app_assoc_s in IH. apply IH. clear - Hc Hn. apply Ascii.eqb_neq in Hn.
    induction cur as [|x cur IH]; cbn in *; [now rewrite Hn|]. apply andb_true_iff in Hc. destruct Hc as (-> & Hc). cbn. auto.
Qed.
Lemma split_listed0 x xs : listed x xs -> split_commas x "" = xs.
Proof. intros L. rewrite (split_listed x xs L ""). destruct L; reflexivity. Qed.
Lemma means_sort ws ts gs : means ws ts gs -> sort_out ws = (ts, gs).
Proof.
  induction 1 as [|x ws ts gs _ IH|x xs ws ts gs L _ IH|w ws ts gs P1 P2 _ IH]; [reflexivity|..]; cbn [sort_out]; rewrite IH.
  - rewrite prefix_app. now rewrite (drop_app "tag:").
  - change (prefix "tag:" ("tags:" ++ x)) with false. rewrite prefix_app, (drop_app "tags:"). now rewrite (split_listed0 x xs L).
  - now rewrite P1, P2.
Qed.
Lemma sort_means ws : exists ts gs, means ws ts gs.
Proof.
  induction ws as [|w ws (ts & gs & IH)]; [exists [], []; constructor|]. destruct (prefix "tag:" w) eqn:P1.
  - rewrite (prefix_inv _ _ P1). eexists _, _. apply me_tag. exact IH.
  - destruct (prefix "tags:" w) eqn:P2.
    + rewrite (prefix_inv _ _ P2). eexists _, _. apply me_tags; [exact (listed_exists _ "" eq_refl)|exact IH].
    + eexists _, _. apply me_term; eassumption.
Qed.

(* ------------------------------------------------------------------ *)
(** * Theorems *)
(** However a query is written, it means its words: the search term is the words to be found, one space between them, and the
    tags are those asked for, in order.  And every query is written in one way. *)
Theorem C88_query_means : forall q ws terms tags, laid_out q ws -> means ws terms tags -> parse_query q = (String.concat " " terms, tags).
Proof. intros q ws ts gs L M. unfold parse_query. rewrite (laid_out_fields q ws L), (means_sort ws ts gs M). reflexivity. Qed.
Theorem C88_every_query : forall q, exists ws terms tags, laid_out q ws /\ means ws terms tags /\
  (forall ws' terms' tags', laid_out q ws' -> means ws' terms' tags' -> ws' = ws /\ terms' = terms /\ tags' = tags).
Proof.
  intros q. destruct (lay q "" eq_refl) as (ws & E & L). destruct (sort_means ws) as (ts & gs & M). exists ws, ts, gs. split; [exact L|]. split; [exact M|].
  intros ws' ts' gs' L' M'. apply laid_out_fields in L'. rewrite E in L'. subst ws'. split; [reflexivity|]. apply means_sort in M, M'. rewrite M in M'. injection M' as -> ->. auto.
Qed.
(** White space is only a separator: two queries with the same words are the same search. *)
Theorem C88_spacing : forall q q' ws, laid_out q ws -> laid_out q' ws -> parse_query q = parse_query q'.
Proof. intros q q' ws L L'. unfold parse_query. now rewrite (laid_out_fields q ws L), (laid_out_fields q' ws L'). Qed.

Lemma concat_nil ts : String.concat " " ts = "" -> Forall (fun t => t <> "") ts -> ts = [].
Proof. intros E F. destruct F as [|t ts Ht _]; [reflexivity|]. destruct t as [|c t]; [congruence|]. destruct ts; discriminate. Qed.
Lemma means_words ws ts gs : means ws ts gs -> Forall word ws -> Forall (fun t => t <> "") ts.
Proof.
  induction 1 as [|x ws ts gs _ IH|x xs ws ts gs L _ IH|w ws ts gs P1 P2 _ IH]; intros F; [constructor|..]; inversion F as [|? ? F1 F2]; subst; auto.
  constructor; [apply F1|auto].
Qed.
Lemma laid_out_words q ws : laid_out q ws -> Forall word ws.
Proof. induction 1; constructor; auto. Qed.
(** GET /jobs?q=..: of the jobs the user may see (C32), those are listed whose text matches the words, if there are any, and
    that have at least one of the tags, if any is asked for. *)
Theorem C88_job_search : forall text_matches os r ps cu q ws terms tags,
  submitted_with nodb os r ps -> laid_out q ws -> means ws terms tags ->
  (In r (selected text_matches (dbs os nodb) cu (fst (parse_query q)) (snd (parse_query q))) <->
   may_see (dbs os nodb) cu ps /\ (terms <> [] -> text_matches (jr_text r) (String.concat " " terms) = true) /\
   (tags <> [] -> exists g, In g tags /\ In g (jr_tags r))).
Proof.
  intros tm os r ps cu q ws ts gs H L M. rewrite (C88_query_means q ws ts gs L M). cbn [fst snd]. rewrite (C32_visibility tm os r ps cu _ _ H). unfold asked_for.
  assert (E : String.concat " " ts <> "" <-> ts <> []).
  { split; intros A B; apply A; [now subst ts|]. apply concat_nil; [exact B|]. eapply means_words; [exact M|]. eapply laid_out_words; exact L. }
  rewrite E. tauto.
Qed.
(** the rows of a log that a search finds (GetTaskLogParts, GetJobLogParts: searchTerm, _ := parseQuery(q)) *)
Definition log_matches (text_matches : string -> string -> bool) (q : string) (r : lrow) : bool := term_ok text_matches (fst (parse_query q)) r.
(** a word that begins with "tag:" or "tags:" does not count in a log search *)
Theorem C88_log_search_drops_tags_refuted : forall tm x r, word x -> log_matches tm ("tag:" ++ x)%string r = true.
Proof.
  intros tm x r W. unfold log_matches. assert (L : laid_out ("tag:" ++ x)%string [("tag:" ++ x)%string]).
  { rewrite <- (app_nil_s ("tag:" ++ x)%string) at 1. apply (lo_word "" ("tag:" ++ x) "" []); [reflexivity| |exact I|apply lo_end; reflexivity].
    split; [discriminate|]. cbn. apply W. }
  rewrite (C88_query_means _ _ [] [x] L (me_tag x [] [] [] me_nil)). reflexivity.
Qed.
(** "tag:" with nothing asks for the empty tag: no job has it unless one was submitted with it *)
Theorem C88_empty_tag_refuted : parse_query "tag:" = ("", [""]) /\ parse_query "tags:a," = ("", ["a"; ""]).
Proof. split; reflexivity. Qed.
Print Assumptions C88_query_means.
Print Assumptions C88_every_query.
Print Assumptions C88_spacing.
Print Assumptions C88_job_search.
Print Assumptions C88_log_search_drops_tags_refuted.

Example C88_nonvacuous : exists ws terms tags, laid_out "  render tag:gpu	video tags:a,b " ws /\ means ws terms tags /\
  terms = ["render"; "video"] /\ tags = ["gpu"; "a"; "b"] /\ parse_query "  render tag:gpu	video tags:a,b " = ("render video", ["gpu"; "a"; "b"]).
Proof.
  destruct (C88_every_query "  render tag:gpu	video tags:a,b ") as (ws & ts & gs & L & M & _). exists ws, ts, gs. split; [exact L|]. split; [exact M|].
  apply laid_out_fields in L. vm_compute in L. subst ws. apply means_sort in M. vm_compute in M. injection M as <- <-. repeat split; reflexivity.
Qed.
