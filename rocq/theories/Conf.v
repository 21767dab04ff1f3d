(** C79: where a setting comes from.  conf/conf.go:16-136.
    The library (koanf v2 with its TOML parser and environment provider) is modelled from its documented behaviour: a
    configuration is a tree of tables, loading merges a new tree over the old one table by table, the environment provider
    builds its tree from the variables of a Go map, in an arbitrary order.
    Simplifications: keys of tables contain no "."; the conversions of values to numbers, booleans and text are parameters. *)
From Coq Require Import List Ascii String Bool Lia NArith ZArith Permutation.
From Verif Require Import Types Container.
Import ListNotations.
Local Open Scope list_scope.
Local Open Scope nat_scope.

(* ------------------------------------------------------------------ *)
(** * Model *)
(** values: texts, lists of texts, anything else (a number, a boolean, ...), tables *)
Inductive cval := CText (s : string) | CTexts (l : list string) | COther (n : Z) | CTable (m : list (string * cval)).
Definition table := list (string * cval).
Fixpoint tget (k : string) (m : table) : option cval :=
  match m with [] => None | (k', v) :: m => if String.eqb k' k then Some v else tget k m end.
Fixpoint tput (k : string) (v : cval) (m : table) : table :=
  match m with
  | [] => [(k, v)]
  | (k', v') :: m => if String.eqb k' k then (k, v) :: m else (k', v') :: tput k v m
  end.
(** koanf maps.Search *)
Fixpoint search (v : cval) (p : list string) : option cval :=
  match p with
  | [] => Some v
  | k :: p => match v with CTable m => match tget k m with Some w => search w p | None => None end | _ => None end
  end.
(** koanf maps.Merge: [a] over [b] *)
Section Over.
Variable f : cval -> cval -> cval.
Fixpoint over (ma mb : table) : table :=
  match ma with
  | [] => mb
  | (k, v) :: r => over r (tput k (match tget k mb with None => v | Some w => f v w end) mb)
  end.
End Over.
Fixpoint merge (a b : cval) {struct a} : cval :=
  match a with
  | CTable ma => match b with CTable mb => CTable (over merge ma mb) | _ => a end
  | _ => a
  end.
(** koanf maps.Unflatten, one entry: a text where a table is needed is skipped over *)
Fixpoint ins (ks : list string) (v : string) (m : table) : table :=
  match ks with
  | [] => m
  | [k] => tput k (CText v) m
  | k :: ks => match tget k m with
               | None => tput k (CTable (ins ks v [])) m
               | Some (CTable m') => tput k (CTable (ins ks v m')) m
               | Some _ => ins ks v m
               end
  end.
Definition unflatten (l : list (list string * string)) : cval := CTable (fold_left (fun m e => ins (fst e) (snd e) m) l []).

(** strings.ToLower on ASCII; ReplaceAll "_" "."; strings.Split at "." *)
Definition lower_char (c : ascii) : ascii :=
  let n := N_of_ascii c in if (N.leb 65 n && N.leb n 90)%bool then ascii_of_N (n + 32) else c.
Fixpoint segments (s : string) : list string :=
  match s with
  | EmptyString => [""%string]
  | String c r => if (Ascii.eqb c "_" || Ascii.eqb c ".")%bool then ""%string :: segments r else cons_to (lower_char c) (segments r)
  end.
(** conf.go:55-57 and the provider's prefix "TORK_"; a blank key is left out *)
Definition env_path (name : string) : option (list string) :=
  if String.prefix "TORK_" name then
    let rest := String.substring 5 (String.length name - 5) name in
    if String.eqb rest "" then None else Some (segments rest)
  else None.
(** the provider's flat map: a later variable with the same key replaces an earlier one *)
Definition peqb (p q : list string) : bool := if list_eq_dec string_dec p q then true else false.
Fixpoint settings (env : list (string * string)) : list (list string * string) :=
  match env with
  | [] => []
  | (n, v) :: r =>
      match env_path n with
      | None => settings r
      | Some p => if existsb (fun e => peqb (fst e) p) (settings r) then settings r else (p, v) :: settings r
      end
  end.

(** a file: missing, unreadable or malformed, or a table *)
Inductive conf_file := FMissing | FBroken | FTable (m : table).
Definition default_paths : list string := ["config.local.toml"; "config.toml"; "~/tork/config.toml"; "/etc/tork/config.toml"]%string.
Definition env_value (env : list (string * string)) (n : string) : string :=
  match find (fun e => String.eqb (fst e) n) env with Some e => snd e | None => ""%string end.
(** conf.go:33-47: [None]: an error; [Some None]: nothing loaded *)
Fixpoint load_files (open : string -> conf_file) (paths : list string) : option (option table) :=
  match paths with
  | [] => Some None
  | f :: r => match open f with FMissing => load_files open r | FBroken => None | FTable m => Some (Some m) end
  end.
(** conf.go:23-64; [order] is the order in which the provider walks its map *)
Definition load_config (open : string -> conf_file) (env : list (string * string)) (order : list (list string * string)) : option cval :=
  let user := env_value env "TORK_CONFIG" in
  let paths := if String.eqb user "" then default_paths else [user] in
  match load_files open paths with
  | None => None
  | Some None => if String.eqb user "" then Some (merge (unflatten order) (CTable [])) else None
  | Some (Some m) => Some (merge (unflatten order) (CTable m))
  end.
(** os.Open with a path: relative to the working directory, no other expansion *)
Definition opens (fs : path -> conf_file) (cwd : path) (p : string) : conf_file :=
  fs (if String.prefix "/" p then abs p else at_ cwd p).

(** strings.Split(s, ",") *)
Fixpoint split_commas (s : string) : list string :=
  match s with
  | EmptyString => [""%string]
  | String c r => if Ascii.eqb c "," then ""%string :: split_commas r else cons_to c (split_commas r)
  end.
Section Get.
Variable shown : cval -> string.      (* fmt.Sprintf("%v", v) of what is not a text; "[]" for the empty list *)
Variable number : cval -> Z.          (* koanf Int, Duration *)
Variable boolean : cval -> bool.      (* koanf Bool *)
Definition get (c : cval) (key : list string) : option cval := search c key.
(** conf.go:113-115 *)
Definition conf_string (c : cval) (key : list string) : string :=
  match get c key with None => ""%string | Some (CText s) => s | Some (CTexts []) => "[]"%string | Some v => shown v end.
(** conf.go:117-123 *)
Definition string_default (c : cval) (key : list string) (dv : string) : string :=
  let v := conf_string c key in if String.eqb v "" then dv else v.
(** conf.go:77-88 *)
Definition strings (c : cval) (key : list string) : list string :=
  let l := match get c key with Some (CTexts l) => l | _ => [] end in
  match l with
  | _ :: _ => l
  | [] => let s := conf_string c key in if String.eqb s "" then [] else split_commas s
  end.
(** conf.go:98-104 *)
Definition strings_default (c : cval) (key : list string) (dv : list string) : list string :=
  match get c key with None => dv | Some _ => strings c key end.
(** conf.go:90-96, 106-112 *)
Definition number_default (c : cval) (key : list string) (dv : Z) : Z := match get c key with None => dv | Some v => number v end.
(** conf.go:125-136 *)
Definition bool_default (c : cval) (key : list string) (dv : bool) : bool := match get c key with None => dv | Some v => boolean v end.
End Get.

(* ------------------------------------------------------------------ *)
(** * Specification *)
(** README: TORK_ + property path with dots replaced by underscores, in capitals *)
Definition upper_char (c : ascii) : ascii :=
  let n := N_of_ascii c in if (N.leb 97 n && N.leb n 122)%bool then ascii_of_N (n - 32) else c.
Fixpoint upper_string (s : string) : string := match s with EmptyString => EmptyString | String c r => String (upper_char c) (upper_string r) end.
Fixpoint joined (sep : string) (l : list string) : string :=
  match l with [] => ""%string | [x] => x | x :: r => (x ++ sep ++ joined sep r)%string end.
Definition variable (key : list string) : string := ("TORK_" ++ joined "_" (map upper_string key))%string.
(** a property name without capitals and underscores *)
Definition simple_char (c : ascii) : Prop := c <> "_"%char /\ c <> "."%char /\ lower_char c = c.
Definition simple (s : string) : Prop := s <> ""%string /\ Forall simple_char (list_ascii_of_string s).
Definition strict_prefix (p q : list string) : Prop := exists x r, q = p ++ x :: r.
(** no variable names a table of which another variable names an entry *)
Definition no_clash (env : list (string * string)) : Prop :=
  forall n p m q, In n (map fst env) -> In m (map fst env) -> env_path n = Some p -> env_path m = Some q -> ~ strict_prefix p q.
(** what a file says about a property *)
Fixpoint file_says (m : table) (key : list string) : option cval :=
  match key with
  | [] => None
  | [k] => tget k m
  | k :: key => match tget k m with Some (CTable m') => file_says m' key | _ => None end
  end.
Definition is_table (v : cval) : Prop := exists m, v = CTable m.
(** the file a configuration is read from: the one named by TORK_CONFIG, otherwise the first of the default places that exists *)
Definition places : list string := ["config.local.toml"; "config.toml"; "~/tork/config.toml"; "/etc/tork/config.toml"]%string.
Definition first_there (open : string -> conf_file) (f : string) : Prop :=
  exists before after, places = before ++ f :: after /\ Forall (fun g => open g = FMissing) before /\ open f <> FMissing.
Definition the_file (open : string -> conf_file) (env : list (string * string)) (f : string) : Prop :=
  (env_value env "TORK_CONFIG" <> ""%string /\ f = env_value env "TORK_CONFIG") \/
  (env_value env "TORK_CONFIG" = ""%string /\ first_there open f).
(** what the file says, nothing if there is none *)
Definition from_file (open : string -> conf_file) (env : list (string * string)) (key : list string) (r : option cval) : Prop :=
  (exists f m, the_file open env f /\ open f = FTable m /\ r = file_says m key) \/
  ((forall f, ~ the_file open env f) /\ r = None).
(** no variable speaks about the property, a table it is in or an entry of it *)
Definition unset (env : list (string * string)) (key : list string) : Prop :=
  forall n p, In n (map fst env) -> env_path n = Some p -> p <> key /\ ~ strict_prefix p key /\ ~ strict_prefix key p.

(* ------------------------------------------------------------------ *)
(** * Proofs: tables *)
Lemma tget_tput k k' v m : tget k (tput k' v m) = if String.eqb k' k then Some v else tget k m.
Proof.
  induction m as [|[k0 v0] m IH]; cbn; [reflexivity|].
  destruct (String.eqb_spec k0 k') as [->|H0]; cbn.
  - destruct (String.eqb k' k); reflexivity.
  - destruct (String.eqb_spec k0 k) as [->|H1]; [|exact IH].
    destruct (String.eqb_spec k' k) as [->|_]; [contradiction|reflexivity].
Qed.
Lemma tget_none k m : tget k m = None <-> ~ In k (map fst m).
Proof.
  induction m as [|[k0 v0] m IH]; cbn; [tauto|]. destruct (String.eqb_spec k0 k) as [->|H].
  - split; [discriminate|]. intros Hn. exfalso. apply Hn. left. reflexivity.
  - rewrite IH. split; [intros A [B|B]; [contradiction|exact (A B)]|intros A B; apply A; right; exact B].
Qed.
Lemma tput_keys k v m x : In x (map fst (tput k v m)) <-> x = k \/ In x (map fst m).
Proof.
  induction m as [|[k0 v0] m IH]; cbn; [intuition|]. destruct (String.eqb_spec k0 k) as [->|H]; cbn; [intuition|]. rewrite IH. intuition.
Qed.
Lemma tput_nodup k v m : NoDup (map fst m) -> NoDup (map fst (tput k v m)).
Proof.
  induction m as [|[k0 v0] m IH]; cbn; intros H; [constructor; [intros []|constructor]|]. inversion H as [|? ? N D]; subst.
  destruct (String.eqb_spec k0 k) as [->|E]; cbn; [constructor; assumption|]. constructor; [|exact (IH D)].
  rewrite tput_keys. intros [A|A]; [exact (E A)|exact (N A)].
Qed.
Lemma tget_over f ma : forall mb k, NoDup (map fst ma) ->
  tget k (over f ma mb) = match tget k ma with
                          | None => tget k mb
                          | Some v => Some (match tget k mb with None => v | Some w => f v w end)
                          end.
Proof.
  induction ma as [|[k0 v0] ma IH]; intros mb k H; [reflexivity|]. cbn in H. inversion H as [|? ? N D]; subst.
  cbn [over tget]. rewrite IH by exact D. rewrite !tget_tput. destruct (String.eqb_spec k0 k) as [->|E]; [|reflexivity].
  apply tget_none in N. rewrite N. reflexivity.
Qed.

(* ------------------------------------------------------------------ *)
(** * Proofs: merging *)
Definition wf (v : cval) : Prop := forall p m, search v p = Some (CTable m) -> NoDup (map fst m).
Lemma wf_sub k m w : wf (CTable m) -> tget k m = Some w -> wf w.
Proof. intros H E p m' Hs. apply (H (k :: p) m'). cbn. rewrite E. exact Hs. Qed.
Lemma merge_leaf a b p : forall v, wf a -> search a p = Some v -> ~ is_table v -> search (merge a b) p = Some v.
Proof.
  revert a b. induction p as [|k p IH]; intros a b v W H T.
  - cbn in *. injection H as <-. destruct a; try reflexivity. exfalso. apply T. eexists. reflexivity.
  - cbn in H. destruct a as [| | |ma]; try discriminate. destruct (tget k ma) as [w|] eqn:E; [|discriminate].
    destruct b as [| | |mb]; cbn [merge search]; try (rewrite E; exact H).
    rewrite tget_over by exact (W [] ma eq_refl). rewrite E.
    destruct (tget k mb) as [x|]; [apply IH; [exact (wf_sub _ _ _ W E)|exact H|exact T]|exact H].
Qed.
Lemma merge_other a b p : wf a -> search a p = None ->
  (forall q v, strict_prefix q p -> search a q = Some v -> is_table v) -> search (merge a b) p = search b p.
Proof.
  revert a b. induction p as [|k p IH]; intros a b W H T; [discriminate|].
  destruct (T [] a (ex_intro _ k (ex_intro _ p eq_refl)) eq_refl) as (ma & ->). cbn in H.
  destruct b as [| | |mb]; cbn [merge search]; try exact H.
  rewrite tget_over by exact (W [] ma eq_refl). destruct (tget k ma) as [w|] eqn:E; [|reflexivity].
  destruct (tget k mb) as [x|]; [|exact H]. apply IH; [exact (wf_sub _ _ _ W E)|exact H|].
  intros q v (y & r & ->) Hq. apply (T (k :: q) v); [exists y, r; reflexivity|]. cbn. rewrite E. exact Hq.
Qed.
Lemma merge_none a b p : wf a -> search a p = None -> search (merge a b) p = search b p \/ search (merge a b) p = None.
Proof.
  revert a b. induction p as [|k p IH]; intros a b W H; [discriminate|].
  destruct a as [| | |ma]; try (right; reflexivity). cbn in H.
  destruct b as [| | |mb]; cbn [merge search]; try (right; exact H).
  rewrite tget_over by exact (W [] ma eq_refl). destruct (tget k ma) as [w|] eqn:E; [|left; reflexivity].
  destruct (tget k mb) as [x|]; [|left; exact H]. apply IH; [exact (wf_sub _ _ _ W E)|exact H].
Qed.
Lemma merge_table a b p m : wf a -> search a p = Some (CTable m) -> exists m', search (merge a b) p = Some (CTable m').
Proof.
  revert a b. induction p as [|k p IH]; intros a b W H.
  - cbn in H. injection H as ->. cbn. destruct b; eexists; reflexivity.
  - cbn in H. destruct a as [| | |ma]; try discriminate. destruct (tget k ma) as [w|] eqn:E; [|discriminate].
    destruct b as [| | |mb]; cbn [merge search]; try (exists m; rewrite E; exact H).
    rewrite tget_over by exact (W [] ma eq_refl). rewrite E.
    destruct (tget k mb) as [x|]; [apply IH; [exact (wf_sub _ _ _ W E)|exact H]|exists m; exact H].
Qed.

(* ------------------------------------------------------------------ *)
(** * Proofs: the tree of the environment *)
Definition apart (p q : list string) : Prop := exists c x y r s, p = c ++ x :: r /\ q = c ++ y :: s /\ x <> y.
Lemma compare_paths p q : p = q \/ strict_prefix p q \/ strict_prefix q p \/ apart p q.
Proof.
  revert q. induction p as [|x p IH]; intros [|y q].
  - left; reflexivity.
  - right; left. exists y, q. reflexivity.
  - right; right; left. exists x, p. reflexivity.
  - destruct (string_dec x y) as [->|N].
    + destruct (IH q) as [->|[(a & b & ->)|[(a & b & ->)|(c & a & b & r & s & -> & -> & E)]]].
      * left; reflexivity.
      * right; left. exists a, b. reflexivity.
      * right; right; left. exists a, b. reflexivity.
      * right; right; right. exists (y :: c), a, b, r, s. auto.
    + right; right; right. exists [], x, y, p, q. auto.
Qed.
(** no text stands where the entry needs a table *)
Definition fits (m : table) (ks : list string) : Prop :=
  forall q v, strict_prefix q ks -> search (CTable m) q = Some v -> is_table v.
Lemma fits_nil ks : fits [] ks.
Proof. intros [|k q] v _ H; [cbn in H; injection H as <-; exists []; reflexivity|discriminate]. Qed.
Lemma fits_sub k ks m m' : fits m (k :: ks) -> tget k m = Some (CTable m') -> fits m' ks.
Proof. intros F E q v (x & r & ->) H. apply (F (k :: q) v); [exists x, r; reflexivity|]. cbn. rewrite E. exact H. Qed.
Lemma ins_step k k' ks v m : fits m (k :: k' :: ks) ->
  exists m', (tget k m = Some (CTable m') \/ tget k m = None /\ m' = []) /\ fits m' (k' :: ks) /\
    ins (k :: k' :: ks) v m = tput k (CTable (ins (k' :: ks) v m')) m.
Proof.
  intros F. cbn [ins]. destruct (tget k m) as [w|] eqn:E.
  - destruct (F [k] w) as (m' & ->); [exists k', ks; reflexivity|cbn; rewrite E; reflexivity|].
    exists m'. split; [left; reflexivity|]. split; [exact (fits_sub _ _ _ _ F E)|reflexivity].
  - exists []. split; [right; split; reflexivity|]. split; [apply fits_nil|reflexivity].
Qed.
Lemma ins_there ks v : forall m, ks <> [] -> fits m ks -> search (CTable (ins ks v m)) ks = Some (CText v).
Proof.
  induction ks as [|k [|k' ks] IH]; intros m N F; [contradiction| |].
  - cbn. rewrite tget_tput, String.eqb_refl. reflexivity.
  - destruct (ins_step _ _ _ v _ F) as (m' & _ & F' & ->). cbn [search]. rewrite tget_tput, String.eqb_refl.
    apply (IH m'); [discriminate|exact F'].
Qed.
Lemma ins_prefix ks v : forall m q, fits m ks -> strict_prefix q ks -> exists m', search (CTable (ins ks v m)) q = Some (CTable m').
Proof.
  induction ks as [|k [|k' ks] IH]; intros m q F (x & r & Eq).
  - destruct q; discriminate.
  - destruct q as [|a [|b q]]; [|discriminate Eq|discriminate Eq]. eexists. reflexivity.
  - destruct q as [|a q]; [eexists; reflexivity|]. injection Eq as -> Eq.
    destruct (ins_step _ _ _ v _ F) as (m' & _ & F' & ->). cbn [search]. rewrite tget_tput, String.eqb_refl.
    apply (IH m' q F'). exists x, r. exact Eq.
Qed.
Lemma ins_apart ks v q : forall m, fits m ks -> apart q ks -> search (CTable (ins ks v m)) q = search (CTable m) q.
Proof.
  intros m F (c & x & y & r & s & -> & -> & N). revert m F. induction c as [|k c IH]; intros m F.
  - cbn [app]. destruct s as [|y' s].
    + cbn. rewrite tget_tput. destruct (String.eqb_spec y x) as [->|_]; [contradiction|reflexivity].
    + destruct (ins_step _ _ _ v _ F) as (m' & _ & _ & ->). cbn [search]. rewrite tget_tput.
      destruct (String.eqb_spec y x) as [->|_]; [contradiction|reflexivity].
  - cbn [app] in *. destruct (c ++ y :: s) as [|k' ks] eqn:E; [destruct c; discriminate|].
    destruct (ins_step _ _ _ v _ F) as (m' & Hm & F' & ->). cbn [search]. rewrite tget_tput, String.eqb_refl, (IH m' F').
    destruct Hm as [-> | (-> & ->)]; [reflexivity|]. destruct c; reflexivity.
Qed.
Lemma ins_beyond ks v : forall m q, ks <> [] -> fits m ks -> strict_prefix ks q -> search (CTable (ins ks v m)) q = None.
Proof.
  intros m q N F (x & r & ->). pose proof (ins_there ks v m N F) as H. revert H. generalize (CTable (ins ks v m)). clear.
  induction ks as [|k ks IH]; intros w H.
  - cbn in H. injection H as ->. reflexivity.
  - cbn [search app] in *. destruct w as [| | |m]; try reflexivity. destruct (tget k m); [apply IH; exact H|reflexivity].
Qed.
Lemma ins_wf ks v : forall m, wf (CTable m) -> wf (CTable (ins ks v m)).
Proof.
  assert (W0 : wf (CTable [])).
  { intros p m H. destruct p; [cbn in H; injection H as <-; constructor|discriminate]. }
  assert (Wp : forall k w m, wf w -> wf (CTable m) -> wf (CTable (tput k w m))).
  { intros k w m Ww Wm [|k' p] m' H.
    - cbn in H. injection H as <-. apply tput_nodup. exact (Wm [] m eq_refl).
    - cbn in H. rewrite tget_tput in H. destruct (String.eqb k k'); [exact (Ww p m' H)|]. exact (Wm (k' :: p) m' H). }
  assert (Wt : forall s, wf (CText s)) by (intros s [|k p] m' H; discriminate).
  induction ks as [|k [|k' ks] IH]; intros m W; [exact W|exact (Wp _ _ _ (Wt v) W)|].
  change (wf (CTable (match tget k m with
                      | None => tput k (CTable (ins (k' :: ks) v [])) m
                      | Some (CTable m') => tput k (CTable (ins (k' :: ks) v m')) m
                      | Some _ => ins (k' :: ks) v m end))).
  destruct (tget k m) as [[| | |m']|] eqn:E; try exact (IH m W).
  - apply Wp; [|exact W]. apply IH. exact (wf_sub _ _ _ W E).
  - apply Wp; [|exact W]. apply IH. exact W0.
Qed.
Lemma unflatten_wf l : wf (unflatten l).
Proof.
  unfold unflatten. assert (G : forall m, wf (CTable m) -> wf (CTable (fold_left (fun m e => ins (fst e) (snd e) m) l m))).
  { induction l as [|e l IH]; intros m W; [exact W|]. cbn. apply IH, ins_wf, W. }
  apply G. intros p m H. destruct p; [cbn in H; injection H as <-; constructor|discriminate].
Qed.
(** the tree of settings whose paths do not clash *)
Definition spread (l : list (list string * string)) : Prop :=
  NoDup (map fst l) /\ (forall p, In p (map fst l) -> p <> []) /\
  forall p q, In p (map fst l) -> In q (map fst l) -> ~ strict_prefix p q.
Definition shape (l : list (list string * string)) (m : table) : Prop :=
  (forall p v, In (p, v) l -> search (CTable m) p = Some (CText v)) /\
  (forall p q, In p (map fst l) -> strict_prefix q p -> exists m', search (CTable m) q = Some (CTable m')) /\
  (forall q, q <> [] -> ~ In q (map fst l) -> (forall p, In p (map fst l) -> ~ strict_prefix q p) -> search (CTable m) q = None).
Lemma sp_irrefl p : ~ strict_prefix p p.
Proof.
  intros (x & r & E). apply (f_equal (@List.length string)) in E. rewrite app_length in E. cbn in E. lia.
Qed.
Lemma sp_trans p q r : strict_prefix p q -> strict_prefix q r -> strict_prefix p r.
Proof. intros (x & s & ->) (y & t & ->). exists x, (s ++ y :: t). rewrite <- app_assoc. reflexivity. Qed.
Lemma sp_dec p q : {strict_prefix p q} + {~ strict_prefix p q}.
Proof.
  revert q. induction p as [|x p IH]; intros [|y q].
  - right. apply sp_irrefl.
  - left. exists y, q. reflexivity.
  - right. intros (a & b & E). discriminate.
  - destruct (string_dec x y) as [->|N].
    + destruct (IH q) as [H|H]; [left; destruct H as (a & b & ->); exists a, b; reflexivity|].
      right. intros (a & b & E). injection E as E. apply H. exists a, b. exact E.
    + right. intros (a & b & E). injection E as E _. apply N. symmetry. exact E.
Defined.
Lemma unflatten_shape l : spread l -> exists m, unflatten l = CTable m /\ shape l m.
Proof.
  intros S. eexists. split; [reflexivity|]. induction l as [|[ks v] l IH] using rev_ind.
  - split; [intros p v []|]. split; [intros p q []|]. intros [|k q] H _ _; [contradiction|reflexivity].
  - rewrite fold_left_app. cbn [fold_left fst snd]. set (m := fold_left (fun (m : table) (e : list string * string) => ins (fst e) (snd e) m) l []) in *.
    destruct S as (D & Ne & Np). rewrite map_app in D. cbn in D.
    pose proof (NoDup_remove_1 _ _ _ D) as D1. pose proof (NoDup_remove_2 _ _ _ D) as D2. rewrite app_nil_r in D1, D2.
    assert (Hk : In ks (map fst (l ++ [(ks, v)]))) by (rewrite map_app, in_app_iff; right; left; reflexivity).
    assert (Hl : forall p, In p (map fst l) -> In p (map fst (l ++ [(ks, v)]))) by (intros p H; rewrite map_app, in_app_iff; left; exact H).
    assert (S' : spread l).
    { split; [exact D1|]. split; [intros p H; apply Ne, Hl, H|]. intros p q H1 H2. apply Np; apply Hl; assumption. }
    destruct (IH S') as (A & B & C). clear IH.
    assert (F : fits m ks).
    { intros q w Hq Hw. destruct q as [|k q]; [cbn in Hw; injection Hw as <-; eexists; reflexivity|].
      destruct (in_dec (list_eq_dec string_dec) (k :: q) (map fst l)) as [Hin|Hin].
      - exfalso. exact (Np _ _ (Hl _ Hin) Hk Hq).
      - destruct (Exists_dec (fun p => strict_prefix (k :: q) p) (map fst l)) as [He|He].
        { intros p. apply sp_dec. }
        + apply Exists_exists in He as (p & Hp & Hqp). destruct (B p (k :: q) Hp Hqp) as (m' & E). rewrite E in Hw. injection Hw as <-.
          exists m'. reflexivity.
        + rewrite C in Hw; [discriminate|discriminate|exact Hin|]. intros p Hp Hqp. apply He. apply Exists_exists. exists p. auto. }
    assert (Nk : ks <> []) by (apply Ne, Hk).
    assert (Ap : forall p, In p (map fst l) -> apart p ks).
    { intros p Hp. destruct (compare_paths p ks) as [->|[H|[H|H]]]; [contradiction| | |exact H].
      - exfalso. exact (Np _ _ (Hl _ Hp) Hk H).
      - exfalso. exact (Np _ _ Hk (Hl _ Hp) H). }
    split; [|split].
    + intros p w Hin. apply in_app_iff in Hin as [Hin|[E|[]]].
      * rewrite ins_apart; [exact (A p w Hin)|exact F|]. apply Ap. apply in_map_iff. exists (p, w). auto.
      * injection E as -> ->. apply ins_there; assumption.
    + intros p q Hp Hqp. rewrite map_app, in_app_iff in Hp. destruct Hp as [Hp|[<-|[]]].
      * destruct (compare_paths q ks) as [->|[H|[H|H]]].
        { exfalso. exact (Np _ _ Hk (Hl _ Hp) Hqp). }
        { apply ins_prefix; assumption. }
        { exfalso. exact (Np _ _ Hk (Hl _ Hp) (sp_trans _ _ _ H Hqp)). }
        { rewrite ins_apart by assumption. exact (B p q Hp Hqp). }
      * apply ins_prefix; assumption.
    + intros q Nq Hq Hp. rewrite map_app, in_app_iff in Hq.
      destruct (compare_paths q ks) as [->|[H|[H|H]]].
      * exfalso. apply Hq. right. left. reflexivity.
      * exfalso. exact (Hp _ Hk H).
      * apply ins_beyond; assumption.
      * rewrite ins_apart by assumption. apply C; [exact Nq|intros G; apply Hq; left; exact G|intros p G; apply Hp, Hl, G].
Qed.

(* ------------------------------------------------------------------ *)
(** * Proofs: variables *)
Lemma lower_upper c : simple_char c -> lower_char (upper_char c) = c /\ (Ascii.eqb (upper_char c) "_" || Ascii.eqb (upper_char c) ".")%bool = false.
Proof.
  intros (H1 & H2 & H3).
  assert (G : forall n, n < 256 -> let c := ascii_of_nat n in
     (Ascii.eqb c "_" || Ascii.eqb c "." || negb (Ascii.eqb (lower_char c) c) ||
      (Ascii.eqb (lower_char (upper_char c)) c && negb (Ascii.eqb (upper_char c) "_" || Ascii.eqb (upper_char c) ".")))%bool = true).
  { intros n Hn.
    assert (A : forallb (fun n => let c := ascii_of_nat n in
      (Ascii.eqb c "_" || Ascii.eqb c "." || negb (Ascii.eqb (lower_char c) c) ||
      (Ascii.eqb (lower_char (upper_char c)) c && negb (Ascii.eqb (upper_char c) "_" || Ascii.eqb (upper_char c) ".")))%bool) (seq 0 256) = true)
      by (vm_compute; reflexivity).
    rewrite forallb_forall in A. apply A. apply List.in_seq. lia. }
  specialize (G (nat_of_ascii c) (nat_ascii_bounded c)). cbv zeta in G. rewrite ascii_nat_embedding in G.
  apply Ascii.eqb_neq in H1, H2. rewrite H1, H2, H3, Ascii.eqb_refl in G. cbn [negb orb] in G.
  apply andb_prop in G as (G1 & G2). apply Ascii.eqb_eq in G1. apply negb_true_iff in G2. auto.
Qed.
Lemma segments_one s : Forall simple_char (list_ascii_of_string s) -> segments (upper_string s) = [s].
Proof.
  induction s as [|c s IH]; cbn; intros H; [reflexivity|]. inversion H as [|? ? Hc Hs]; subst.
  destruct (lower_upper c Hc) as (E1 & E2). rewrite E2, IH by exact Hs. cbn. rewrite E1. reflexivity.
Qed.
Lemma segments_sep s r : Forall simple_char (list_ascii_of_string s) -> segments (upper_string s ++ "_" ++ r) = s :: segments r.
Proof.
  induction s as [|c s IH]; intros H; [reflexivity|]. cbn in H. inversion H as [|? ? Hc Hs]; subst.
  destruct (lower_upper c Hc) as (E1 & E2). cbn [upper_string append segments]. rewrite E2. cbn [append] in IH. rewrite IH by exact Hs.
  cbn. rewrite E1. reflexivity.
Qed.
Lemma segments_variable key : key <> [] -> Forall simple key -> segments (joined "_" (map upper_string key)) = key.
Proof.
  induction key as [|x key IH]; intros N F; [contradiction|]. inversion F as [|? ? Hx Fk]; subst. destruct Hx as (_ & Hx).
  destruct key as [|y key]; [exact (segments_one x Hx)|].
  change (joined "_" (map upper_string (x :: y :: key))) with (upper_string x ++ "_" ++ joined "_" (map upper_string (y :: key)))%string.
  rewrite segments_sep by exact Hx. f_equal. apply IH; [discriminate|exact Fk].
Qed.
Lemma substring_all s : String.substring 0 (String.length s) s = s.
Proof. induction s as [|c s IH]; [reflexivity|]. cbn. rewrite IH. reflexivity. Qed.
Lemma env_path_of r : env_path ("TORK_" ++ r) = if String.eqb r "" then None else Some (segments r).
Proof.
  unfold env_path. assert (E : String.substring 5 (String.length ("TORK_" ++ r) - 5) ("TORK_" ++ r) = r).
  { cbn [append String.length Nat.sub]. rewrite Nat.sub_0_r. exact (substring_all r). }
  assert (P : String.prefix "TORK_" ("TORK_" ++ r) = true) by (destruct r; reflexivity).
  rewrite P, E. reflexivity.
Qed.
Lemma env_path_variable key : key <> [] -> Forall simple key -> env_path (variable key) = Some key.
Proof.
  intros N F. unfold variable. rewrite env_path_of. pose proof (segments_variable key N F) as E.
  destruct (String.eqb_spec (joined "_" (map upper_string key)) "") as [E0|_]; [|rewrite E; reflexivity].
  rewrite E0 in E. cbn in E. subst key. inversion F as [|? ? (H & _) _]; subst. contradiction.
Qed.
Lemma segments_nonempty s : segments s <> [].
Proof. destruct s as [|c s]; [discriminate|]. cbn. destruct (_ || _)%bool; [discriminate|]. unfold cons_to. destruct (segments s); discriminate. Qed.
Lemma env_path_nonempty n p : env_path n = Some p -> p <> [].
Proof.
  unfold env_path. destruct (String.prefix "TORK_" n); [|discriminate]. destruct (String.eqb _ ""); [discriminate|].
  intros H. injection H as <-. apply segments_nonempty.
Qed.
Lemma settings_path env p : In p (map fst (settings env)) <-> exists n, In n (map fst env) /\ env_path n = Some p.
Proof.
  induction env as [|[n v] env IH]; [cbn; split; [intros []|intros (n & [] & _)]|]. cbn [settings map fst].
  assert (G : (exists n0, In n0 (n :: map fst env) /\ env_path n0 = Some p) <-> env_path n = Some p \/ exists n0, In n0 (map fst env) /\ env_path n0 = Some p).
  { split; [intros (n0 & [<-|H] & E); [left; exact E|right; exists n0; auto]|].
    intros [E|(n0 & H & E)]; [exists n; split; [left; reflexivity|exact E]|exists n0; split; [right; exact H|exact E]]. }
  rewrite G, <- IH. clear G. destruct (env_path n) as [q|]; [|split; [right; assumption|intros [H|H]; [discriminate|exact H]]].
  destruct (existsb (fun e => peqb (fst e) q) (settings env)) eqn:Ex.
  - split; [right; assumption|]. intros [H|H]; [|exact H]. injection H as ->.
    apply existsb_exists in Ex as (e & He & Eq). unfold peqb in Eq. destruct (list_eq_dec string_dec (fst e) p) as [<-|]; [|discriminate].
    apply in_map. exact He.
  - cbn [map fst In]. split; intros [H|H]; [left; congruence|right; exact H|left; congruence|right; exact H].
Qed.
Lemma settings_nodup env : NoDup (map fst (settings env)).
Proof.
  induction env as [|[n v] env IH]; [constructor|]. cbn [settings]. destruct (env_path n) as [q|]; [|exact IH].
  destruct (existsb (fun e => peqb (fst e) q) (settings env)) eqn:Ex; [exact IH|]. cbn. constructor; [|exact IH].
  intros Hin. apply in_map_iff in Hin as (e & <- & He).
  assert (T : existsb (fun e0 => peqb (fst e0) (fst e)) (settings env) = true).
  { apply existsb_exists. exists e. split; [exact He|]. unfold peqb. destruct (list_eq_dec string_dec (fst e) (fst e)); [reflexivity|contradiction]. }
  rewrite T in Ex. discriminate.
Qed.
Lemma settings_last e1 n v e2 p : env_path n = Some p -> (forall m, In m (map fst e2) -> env_path m <> Some p) ->
  In (p, v) (settings (e1 ++ (n, v) :: e2)).
Proof.
  intros E H. induction e1 as [|[n1 v1] e1 IH].
  - cbn [app settings]. rewrite E. destruct (existsb (fun e => peqb (fst e) p) (settings e2)) eqn:Ex; [|left; reflexivity].
    exfalso. apply existsb_exists in Ex as (e & He & Eq). unfold peqb in Eq.
    destruct (list_eq_dec string_dec (fst e) p) as [<-|]; [|discriminate].
    destruct (proj1 (settings_path e2 (fst e)) (in_map fst _ _ He)) as (m & Hm & Em). exact (H m Hm Em).
  - cbn [app settings]. destruct (env_path n1) as [q|]; [|exact IH].
    destruct (existsb (fun e => peqb (fst e) q) (settings (e1 ++ (n, v) :: e2))); [exact IH|right; exact IH].
Qed.
Lemma settings_spread env order : Permutation order (settings env) -> no_clash env -> spread order.
Proof.
  intros P N. pose proof (Permutation_map fst P) as Pm.
  assert (I : forall p, In p (map fst order) -> exists n, In n (map fst env) /\ env_path n = Some p).
  { intros p H. apply settings_path. exact (Permutation_in _ Pm H). }
  split; [apply (Permutation_NoDup (Permutation_sym Pm)), settings_nodup|]. split.
  - intros p H. destruct (I p H) as (n & _ & E). exact (env_path_nonempty _ _ E).
  - intros p q Hp Hq. destruct (I p Hp) as (n & Hn & En). destruct (I q Hq) as (m & Hm & Em). exact (N n p m q Hn Hm En Em).
Qed.
(** what the environment's tree has at a path *)
Lemma tree_at l m p : spread l -> shape l m -> p <> [] ->
  (exists v, In (p, v) l /\ search (CTable m) p = Some (CText v)) \/
  ((exists q, In q (map fst l) /\ strict_prefix p q) /\ exists m', search (CTable m) p = Some (CTable m')) \/
  (~ In p (map fst l) /\ (forall q, In q (map fst l) -> ~ strict_prefix p q) /\ search (CTable m) p = None).
Proof.
  intros S (A & B & C) Np. destruct (in_dec (list_eq_dec string_dec) p (map fst l)) as [Hin|Hin].
  - left. apply in_map_iff in Hin as ([p' v] & E & H). cbn in E. subst p'. exists v. split; [exact H|]. exact (A p v H).
  - destruct (Exists_dec (strict_prefix p) (map fst l) (sp_dec p)) as [He|He].
    + apply Exists_exists in He as (q & Hq & Hs). right. left. split; [exists q; auto|]. exact (B q p Hq Hs).
    + assert (G : forall q, In q (map fst l) -> ~ strict_prefix p q) by (intros q Hq Hs; apply He, Exists_exists; exists q; auto).
      right. right. split; [exact Hin|]. split; [exact G|]. exact (C p Np Hin G).
Qed.
Lemma file_search m key : key <> [] -> search (CTable m) key = file_says m key.
Proof.
  revert m. induction key as [|k key IH]; intros m N; [contradiction|]. cbn [search file_says].
  destruct key as [|k' key]; [destruct (tget k m); reflexivity|].
  destruct (tget k m) as [w|]; [|reflexivity]. destruct w as [| | |m']; try reflexivity. apply IH. discriminate.
Qed.
(** what was loaded *)
Lemma load_files_spec open paths :
  match load_files open paths with
  | None => exists before f after, paths = before ++ f :: after /\ Forall (fun g => open g = FMissing) before /\ open f = FBroken
  | Some None => Forall (fun g => open g = FMissing) paths
  | Some (Some m) => exists before f after, paths = before ++ f :: after /\ Forall (fun g => open g = FMissing) before /\ open f = FTable m
  end.
Proof.
  induction paths as [|f paths IH]; cbn [load_files]; [constructor|]. destruct (open f) as [| |m] eqn:E.
  - destruct (load_files open paths) as [[m|]|].
    + destruct IH as (b & g & a & -> & F & G). exists (f :: b), g, a. split; [reflexivity|]. split; [constructor; assumption|exact G].
    + constructor; assumption.
    + destruct IH as (b & g & a & -> & F & G). exists (f :: b), g, a. split; [reflexivity|]. split; [constructor; assumption|exact G].
  - exists [], f, paths. split; [reflexivity|]. split; [constructor|exact E].
  - exists [], f, paths. split; [reflexivity|]. split; [constructor|exact E].
Qed.
Lemma loaded_from open env order c : load_config open env order = Some c ->
  exists m, c = merge (unflatten order) (CTable m) /\
    ((exists f, the_file open env f /\ open f = FTable m) \/ ((forall f, ~ the_file open env f) /\ m = [])).
Proof.
  unfold load_config. destruct (String.eqb_spec (env_value env "TORK_CONFIG") "") as [U|U].
  - pose proof (load_files_spec open default_paths) as L. destruct (load_files open default_paths) as [[m|]|]; intros H; [| |discriminate].
    + injection H as <-. exists m. split; [reflexivity|]. left. destruct L as (b & f & a & E & F & G). exists f. split; [|exact G].
      right. split; [exact U|]. exists b, a. split; [exact E|]. split; [exact F|]. rewrite G. discriminate.
    + injection H as <-. exists []. split; [reflexivity|]. right. split; [|reflexivity]. intros f [(N & _)|(_ & b & a & E & _ & N)]; [contradiction|].
      rewrite Forall_forall in L. apply N, L. change default_paths with places. rewrite E. apply in_app_iff. right. left. reflexivity.
  - cbn [load_files]. destruct (open (env_value env "TORK_CONFIG")) as [| |m] eqn:E; intros H; [discriminate|discriminate|].
    injection H as <-. exists m. split; [reflexivity|]. left. eexists. split; [left; split; [exact U|reflexivity]|exact E].
Qed.

(* ------------------------------------------------------------------ *)
(** * Theorems *)
(** C79: the file: TORK_CONFIG names the only candidate, which must be there and be well-formed; otherwise the first default
    place that exists is read, and no other. *)
Theorem C79_which_file : forall open env order,
  (env_value env "TORK_CONFIG" <> ""%string ->
     ((exists c, load_config open env order = Some c) <-> exists m, open (env_value env "TORK_CONFIG") = FTable m)) /\
  (env_value env "TORK_CONFIG" = ""%string ->
     (load_config open env order = None <-> exists f, first_there open f /\ open f = FBroken)).
Proof.
  intros open env order. unfold load_config. destruct (String.eqb_spec (env_value env "TORK_CONFIG") "") as [U|U].
  - split; [intros H; contradiction|]. intros _. pose proof (load_files_spec open default_paths) as L.
    assert (Uni : forall f g, first_there open f -> first_there open g -> f = g).
    { assert (V : forall l f g b a b' a', l = b ++ f :: a -> l = b' ++ g :: a' -> Forall (fun g => open g = FMissing) b ->
                Forall (fun g => open g = FMissing) b' -> open f <> FMissing -> open g <> FMissing -> f = g).
      { induction l as [|x l IH]; intros f g b a b' a' E1 E2 F1 F2 N1 N2; [destruct b; discriminate|].
        destruct b as [|y b], b' as [|y' b']; cbn in E1, E2.
        - congruence.
        - injection E1 as -> ->. injection E2 as <- E2. inversion F2; subst. contradiction.
        - injection E2 as -> ->. injection E1 as <- E1. inversion F1; subst. contradiction.
        - injection E1 as <- E1. injection E2 as <- E2. inversion F1; subst. inversion F2; subst. eapply IH; eauto. }
      intros f g (b & a & E & F & N) (b' & a' & E' & F' & N'). exact (V _ _ _ _ _ _ _ E E' F F' N N'). }
    destruct (load_files open default_paths) as [[m|]|].
    + split; [discriminate|]. intros (f & Hf & Bf). destruct L as (b & g & a & E & F & G).
      assert (Hg : first_there open g) by (exists b, a; split; [exact E|]; split; [exact F|]; rewrite G; discriminate).
      rewrite (Uni f g Hf Hg), G in Bf. discriminate.
    + split; [discriminate|]. intros (f & (b & a & E & _ & N) & _). exfalso. apply N. rewrite Forall_forall in L. apply L.
      change default_paths with places. rewrite E. apply in_app_iff. right. left. reflexivity.
    + split; [|reflexivity]. intros _. destruct L as (b & f & a & E & F & G). exists f. split; [|exact G].
      exists b, a. split; [exact E|]. split; [exact F|]. rewrite G. discriminate.
  - split; [|intros H; contradiction]. intros _. cbn [load_files].
    destruct (open (env_value env "TORK_CONFIG")) as [| |m]; (split; [intros (c & H)|intros (m' & H)]); try discriminate; eexists; reflexivity.
Qed.
Print Assumptions C79_which_file.

(** C79: a property set in the environment has that value, whatever any file says. *)
Theorem C79_environment_wins : forall open env order c key v before after,
  load_config open env order = Some c -> Permutation order (settings env) -> no_clash env ->
  key <> [] -> Forall simple key ->
  env = before ++ (variable key, v) :: after -> (forall n, In n (map fst after) -> env_path n <> Some key) ->
  get c key = Some (CText v) /\
  (forall shown, conf_string shown c key = v /\ (v <> ""%string -> forall dv, string_default shown c key dv = v) /\
                 (v <> ""%string -> strings shown c key = split_commas v)).
Proof.
  intros open env order c key v e1 e2 H P N Nk F -> Hl. destruct (loaded_from _ _ _ _ H) as (m & -> & _).
  destruct (unflatten_shape order (settings_spread _ _ P N)) as (mt & Et & A & _).
  assert (Hin : In (key, v) order).
  { apply (Permutation_in _ (Permutation_sym P)). apply settings_last; [apply env_path_variable; assumption|exact Hl]. }
  assert (G : get (merge (unflatten order) (CTable m)) key = Some (CText v)).
  { apply merge_leaf; [apply unflatten_wf|rewrite Et; apply A, Hin|intros (x & Ex); discriminate]. }
  split; [exact G|]. intros shown. unfold string_default, strings, conf_string. rewrite G.
  split; [reflexivity|]. split; intros Nv; [intros dv|]; rewrite (proj2 (String.eqb_neq _ _) Nv); reflexivity.
Qed.
Print Assumptions C79_environment_wins.

(** C79: a property no variable speaks about has the value the file gives it, or none. *)
Theorem C79_file_value : forall open env order c key,
  load_config open env order = Some c -> Permutation order (settings env) -> no_clash env ->
  key <> [] -> unset env key -> from_file open env key (get c key).
Proof.
  intros open env order c key H P N Nk U. destruct (loaded_from _ _ _ _ H) as (m & -> & L).
  pose proof (settings_spread _ _ P N) as S. destruct (unflatten_shape order S) as (mt & Et & Sh).
  assert (I : forall p, In p (map fst order) -> p <> key /\ ~ strict_prefix p key /\ ~ strict_prefix key p).
  { intros p Hp. destruct (proj1 (settings_path env p) (Permutation_in _ (Permutation_map fst P) Hp)) as (n & Hn & En). exact (U n p Hn En). }
  assert (G : get (merge (unflatten order) (CTable m)) key = search (CTable m) key).
  { apply merge_other; [apply unflatten_wf| |].
    - rewrite Et. destruct Sh as (_ & _ & C). apply C; [exact Nk|intros Hin; exact (proj1 (I _ Hin) eq_refl)|intros p Hp; exact (proj2 (proj2 (I p Hp)))].
    - intros q v Hq Hv. destruct q as [|k q]; [cbn in Hv; injection Hv as <-; rewrite Et; exists mt; reflexivity|].
      rewrite Et in Hv. destruct (tree_at order mt (k :: q) S Sh ltac:(discriminate)) as [(w & Hw & _)|[(_ & m' & E)|(_ & _ & E)]].
      + exfalso. exact (proj1 (proj2 (I _ (in_map fst _ _ Hw))) Hq).
      + rewrite E in Hv. injection Hv as <-. exists m'. reflexivity.
      + rewrite E in Hv. discriminate. }
  rewrite G, (file_search m key Nk). destruct L as [(f & Hf & Ho)|(Hf & ->)].
  - left. exists f, m. auto.
  - right. split; [exact Hf|]. destruct key as [|k [|k' key]]; [contradiction|reflexivity|reflexivity].
Qed.
Print Assumptions C79_file_value.

(** C79: a property neither set in the environment nor in the file has its default. *)
Theorem C79_defaults : forall open env order c key,
  load_config open env order = Some c -> Permutation order (settings env) -> no_clash env ->
  key <> [] -> unset env key -> (forall f m, the_file open env f -> open f = FTable m -> file_says m key = None) ->
  forall shown number boolean,
  (forall dv, string_default shown c key dv = dv) /\ (forall dv, strings_default shown c key dv = dv) /\
  (forall dv, number_default number c key dv = dv) /\ (forall dv, bool_default boolean c key dv = dv) /\ strings shown c key = [].
Proof.
  intros open env order c key H P N Nk U D shown number boolean.
  assert (G : get c key = None).
  { destruct (C79_file_value _ _ _ _ _ H P N Nk U) as [(f & m & Hf & Ho & E)|(_ & E)]; [rewrite E; exact (D f m Hf Ho)|exact E]. }
  unfold string_default, strings_default, number_default, bool_default, strings, conf_string. rewrite G. cbn. auto 6.
Qed.
Print Assumptions C79_defaults.

(** C79: a value written in the file as a list of texts is that list, and one written as a text is split at commas. *)
Theorem C79_lists : forall shown c key, 
  (forall x l, get c key = Some (CTexts (x :: l)) -> strings shown c key = x :: l) /\
  (forall l, l <> [] -> l <> [""%string] -> Forall (fun x => ~ In ","%char (list_ascii_of_string x)) l ->
     get c key = Some (CText (joined "," l)) -> strings shown c key = l).
Proof.
  intros shown c key. split; [intros x l H; unfold strings; rewrite H; reflexivity|].
  intros l N0 N1 F H. unfold strings, conf_string. rewrite H.
  assert (S0 : forall x, ~ In ","%char (list_ascii_of_string x) -> split_commas x = [x]).
  { induction x as [|a x IH]; intros Hx; [reflexivity|]. cbn in Hx |- *. destruct (Ascii.eqb_spec a ",") as [->|_]; [exfalso; apply Hx; left; reflexivity|].
    rewrite IH; [reflexivity|]. intros G. apply Hx. right. exact G. }
  assert (S1 : forall x r, ~ In ","%char (list_ascii_of_string x) -> split_commas (x ++ "," ++ r) = x :: split_commas r).
  { induction x as [|a x IH]; intros r Hx; [reflexivity|]. cbn in Hx. cbn [append split_commas].
    destruct (Ascii.eqb_spec a ",") as [->|_]; [exfalso; apply Hx; left; reflexivity|]. cbn [append] in IH.
    rewrite IH; [reflexivity|]. intros G. apply Hx. right. exact G. }
  assert (E : split_commas (joined "," l) = l).
  { clear N1 H. induction l as [|x l IH]; [contradiction|]. inversion F as [|? ? Hx Fl]; subst.
    destruct l as [|y l]; [exact (S0 x Hx)|].
    change (joined "," (x :: y :: l)) with (x ++ "," ++ joined "," (y :: l))%string. rewrite S1 by exact Hx. f_equal. apply IH; [discriminate|exact Fl]. }
  destruct (String.eqb_spec (joined "," l) "") as [E0|_]; [|exact E]. rewrite E0 in E. cbn in E. symmetry in E. contradiction.
Qed.
Print Assumptions C79_lists.

(** C79: only variables named TORK_... matter, and the order in which the provider walks its map does not. *)
Theorem C79_only_tork : forall open env env' order,
  filter (fun e => String.prefix "TORK_" (fst e)) env = filter (fun e => String.prefix "TORK_" (fst e)) env' ->
  load_config open env order = load_config open env' order /\ settings env = settings env'.
Proof.
  intros open env env' order H.
  assert (A : forall e, settings e = settings (filter (fun e => String.prefix "TORK_" (fst e)) e)).
  { induction e as [|[n v] e IH]; [reflexivity|]. cbn [filter fst settings]. destruct (String.prefix "TORK_" n) eqn:Ep.
    - cbn [settings]. rewrite IH. reflexivity.
    - unfold env_path. rewrite Ep. exact IH. }
  assert (B : forall e, env_value e "TORK_CONFIG" = env_value (filter (fun e => String.prefix "TORK_" (fst e)) e) "TORK_CONFIG").
  { induction e as [|[n v] e IH]; [reflexivity|]. unfold env_value in *. cbn [filter find fst].
    destruct (String.eqb_spec n "TORK_CONFIG") as [->|Ne]; [reflexivity|]. destruct (String.prefix "TORK_" n); [|exact IH].
    cbn [find fst]. rewrite (proj2 (String.eqb_neq _ _) Ne). exact IH. }
  split; [|rewrite (A env), (A env'), H; reflexivity]. unfold load_config. rewrite (B env), (B env'), H. reflexivity.
Qed.
Print Assumptions C79_only_tork.
Theorem C79_any_order : forall open env order order' c c' key v,
  load_config open env order = Some c -> load_config open env order' = Some c' ->
  Permutation order (settings env) -> Permutation order' (settings env) -> no_clash env ->
  get c key = Some v -> ~ is_table v -> get c' key = Some v.
Proof.
  intros open env o o' c c' key v H H' P P' N G T. destruct key as [|k key].
  { exfalso. apply T. cbn in G. injection G as <-. destruct (loaded_from _ _ _ _ H) as (m & -> & _). cbn. eexists. reflexivity. }
  destruct (loaded_from _ _ _ _ H) as (m & -> & L). destruct (loaded_from _ _ _ _ H') as (m' & -> & L').
  assert (Em : m = m').
  { unfold load_config in H, H'. destruct (load_files open (if String.eqb (env_value env "TORK_CONFIG") "" then default_paths else [env_value env "TORK_CONFIG"])) as [[x|]|] eqn:E;
      [| |discriminate].
    - destruct L as [(f & Hf & Ho)|(Hf & ->)], L' as [(f' & Hf' & Ho')|(Hf' & ->)].
      + assert (f = f'); [|congruence].
        destruct Hf as [(Na & ->)|(Na & b & a & Ed & Fb & No)], Hf' as [(Nb & ->)|(Nb & b' & a' & Ed' & Fb' & No')]; try contradiction; [reflexivity|].
        clear -Ed Ed' Fb Fb' No No'. revert b' Ed Ed' Fb'. generalize places. induction b as [|y b IH]; intros l b' Ed Ed' Fb'.
        * destruct b' as [|y' b']; cbn in Ed, Ed'; [congruence|]. rewrite Ed in Ed'. injection Ed' as -> _. inversion Fb'; subst. contradiction.
        * destruct b' as [|y' b']; cbn in Ed, Ed'; subst l; injection Ed' as E1 E2.
          -- subst y. inversion Fb; subst. contradiction.
          -- subst y. inversion Fb; subst. inversion Fb'; subst. eapply (IH ltac:(assumption) _ b'); [reflexivity|exact E2|assumption].
      + exfalso. exact (Hf' f Hf).
      + exfalso. exact (Hf f' Hf').
      + reflexivity.
    - destruct L as [(f & Hf & Ho)|(Hf & ->)], L' as [(f' & Hf' & Ho')|(Hf' & ->)]; [|exfalso; exact (Hf' f Hf)|exfalso; exact (Hf f' Hf')|reflexivity].
      exfalso. pose proof (load_files_spec open (if String.eqb (env_value env "TORK_CONFIG") "" then default_paths else [env_value env "TORK_CONFIG"])) as Ls.
      rewrite E in Ls. destruct Hf as [(Na & ->)|(Na & b & a & Ed & _ & No)].
      + rewrite (proj2 (String.eqb_neq _ _) Na) in Ls. inversion Ls; subst. congruence.
      + rewrite Na in Ls. cbn [String.eqb] in Ls. rewrite Forall_forall in Ls. apply No, Ls. change default_paths with places. rewrite Ed. apply in_app_iff. right. left. reflexivity. }
  subst m'. clear L L' H H'.
  pose proof (settings_spread _ _ P N) as S. pose proof (settings_spread _ _ P' N) as S'.
  destruct (unflatten_shape o S) as (mt & Et & Sh). destruct (unflatten_shape o' S') as (mt' & Et' & Sh').
  assert (Po : Permutation o o') by exact (Permutation_trans P (Permutation_sym P')).
  assert (Pm : forall p, In p (map fst o) <-> In p (map fst o')).
  { intros p. split; apply Permutation_in; [|apply Permutation_sym]; exact (Permutation_map fst Po). }
  unfold get in *. pose proof (unflatten_wf o) as W. pose proof (unflatten_wf o') as W'. rewrite Et in *. rewrite Et' in *.
  destruct (tree_at o mt (k :: key) S Sh ltac:(discriminate)) as [(w & Hw & E)|[(_ & m1 & E)|(N1 & N2 & E)]].
  - assert (Ev : v = CText w) by (rewrite (merge_leaf _ _ _ _ W E) in G; [congruence|intros (x & Ex); discriminate]). subst v.
    apply merge_leaf; [exact W'| |exact T]. destruct Sh' as (A & _). apply A. exact (Permutation_in _ Po Hw).
  - exfalso. destruct (merge_table _ (CTable m) _ _ W E) as (m2 & E2). rewrite E2 in G. injection G as <-. apply T. exists m2. reflexivity.
  - assert (E' : search (CTable mt') (k :: key) = None).
    { destruct Sh' as (_ & _ & C). apply C; [discriminate|rewrite <- Pm; exact N1|intros q Hq; apply N2, Pm, Hq]. }
    destruct (merge_none _ (CTable m) _ W E) as [Em|Em]; rewrite Em in G; [|discriminate].
    destruct (Exists_dec (fun p => strict_prefix p (k :: key)) (map fst o) (fun p => sp_dec p (k :: key))) as [He|He].
    + exfalso. apply Exists_exists in He as (p & Hp & Hs). apply in_map_iff in Hp as ([p' w] & Ep & Hw). cbn in Ep. subst p'.
      destruct Hs as (x & r & Ek). destruct Sh as (A & _). pose proof (merge_leaf _ (CTable m) _ _ W (A p w Hw)) as Hp.
      rewrite <- Em in G. rewrite Ek in G. clear -Hp G. specialize (Hp ltac:(intros (y & Ey); discriminate)).
      revert Hp G. generalize (merge (CTable mt) (CTable m)). induction p as [|a p IH]; intros t Hp G.
      * cbn in Hp. injection Hp as ->. discriminate.
      * cbn in Hp, G. destruct t as [| | |mm]; try discriminate. destruct (tget a mm); [exact (IH _ Hp G)|discriminate].
    + rewrite merge_other; [exact G|exact W'|exact E'|]. intros q u Hq Hu.
      destruct q as [|a q]; [cbn in Hu; injection Hu as <-; exists mt'; reflexivity|].
      destruct (tree_at o' mt' (a :: q) S' Sh' ltac:(discriminate)) as [(z & Hz & _)|[(_ & m3 & E3)|(_ & _ & E3)]].
      * exfalso. apply He, Exists_exists. exists (a :: q). split; [apply Pm; exact (in_map fst _ _ Hz)|exact Hq].
      * rewrite E3 in Hu. injection Hu as <-. exists m3. reflexivity.
      * rewrite E3 in Hu. discriminate.
Qed.
Print Assumptions C79_any_order.

(* ------------------------------------------------------------------ *)
(** * Properties the environment cannot reach *)
Definition reachable_char (c : ascii) : Prop := c <> "_"%char /\ lower_char c = c.
Lemma lower_reachable c : (Ascii.eqb c "_" || Ascii.eqb c ".")%bool = false -> reachable_char (lower_char c).
Proof.
  intros H. destruct c as [b0 b1 b2 b3 b4 b5 b6 b7].
  destruct b0, b1, b2, b3, b4, b5, b6, b7; try discriminate H; (split; [discriminate|reflexivity]).
Qed.
Lemma segments_reachable s : Forall (fun x => Forall reachable_char (list_ascii_of_string x)) (segments s).
Proof.
  induction s as [|c s IH]; [repeat constructor|]. cbn [segments]. destruct (_ || _)%bool eqn:E; [constructor; [constructor|exact IH]|].
  unfold cons_to. destruct (segments s) as [|x xs]; [repeat constructor; apply lower_reachable; exact E|].
  inversion IH; subst. constructor; [|assumption]. cbn. constructor; [apply lower_reachable; exact E|assumption].
Qed.
Lemma ins_keys (Q : string -> Prop) ks v : forall m p, Forall Q ks ->
  (forall p, search (CTable m) p <> None -> Forall Q p) -> search (CTable (ins ks v m)) p <> None -> Forall Q p.
Proof.
  induction ks as [|k [|k' ks] IH]; intros m p F Hm Hp; [exact (Hm p Hp)| |].
  - inversion F as [|? ? Hk _]; subst. destruct p as [|a p]; [constructor|]. cbn in Hp. rewrite tget_tput in Hp.
    destruct (String.eqb_spec k a) as [->|_]; [|apply Hm; exact Hp]. destruct p as [|b p]; [constructor; [exact Hk|constructor]|]. contradiction.
  - inversion F as [|? ? Hk F']; subst.
    change (search (CTable (match tget k m with
                      | None => tput k (CTable (ins (k' :: ks) v [])) m
                      | Some (CTable m') => tput k (CTable (ins (k' :: ks) v m')) m
                      | Some _ => ins (k' :: ks) v m end)) p <> None) in Hp.
    assert (Hput : forall m', (forall p, search (CTable m') p <> None -> Forall Q p) ->
              search (CTable (tput k (CTable (ins (k' :: ks) v m')) m)) p <> None -> Forall Q p).
    { intros m' Hm' G. destruct p as [|a p]; [constructor|]. cbn [search] in G. rewrite tget_tput in G.
      destruct (String.eqb_spec k a) as [->|_]; [|apply Hm; exact G]. constructor; [exact Hk|]. exact (IH m' p F' Hm' G). }
    destruct (tget k m) as [[| | |m']|] eqn:E; try exact (IH m p F' Hm Hp).
    + apply (Hput m'); [|exact Hp]. intros p' G. assert (K : Forall Q (k :: p')); [|inversion K; assumption].
      apply Hm. cbn. rewrite E. exact G.
    + apply (Hput []); [|exact Hp]. intros [|a p'] G; [constructor|contradiction].
Qed.
(** C79: no environment whatever (clashing or not) changes a property whose name has an underscore or a capital letter: it
    keeps the value of the file, or loses it. *)
Theorem C79_unreachable : forall open env order c key,
  load_config open env order = Some c -> Permutation order (settings env) ->
  ~ Forall (fun x => Forall reachable_char (list_ascii_of_string x)) key ->
  from_file open env key (get c key) \/ get c key = None.
Proof.
  intros open env order c key H P Nr. assert (Nk : key <> []) by (intros ->; apply Nr; constructor).
  destruct (loaded_from _ _ _ _ H) as (m & -> & L).
  assert (E : search (unflatten order) key = None).
  { assert (I : Forall (fun e => Forall (fun x => Forall reachable_char (list_ascii_of_string x)) (fst e)) order).
    { apply Forall_forall. intros [p v] Hin. cbn.
      destruct (proj1 (settings_path env p) (Permutation_in _ (Permutation_map fst P) (in_map fst _ _ Hin))) as (n & _ & En).
      unfold env_path in En. destruct (String.prefix "TORK_" n); [|discriminate]. destruct (String.eqb _ ""); [discriminate|].
      injection En as <-. apply segments_reachable. }
    unfold unflatten. destruct (search _ key) eqn:E; [|reflexivity]. exfalso. apply Nr.
    assert (G : forall mm, (forall p, search (CTable mm) p <> None -> Forall (fun x => Forall reachable_char (list_ascii_of_string x)) p) ->
              forall p, search (CTable (fold_left (fun m e => ins (fst e) (snd e) m) order mm)) p <> None ->
              Forall (fun x => Forall reachable_char (list_ascii_of_string x)) p).
    { clear -I. induction order as [|e order IH]; intros mm Hmm p Hp; [exact (Hmm p Hp)|]. inversion I; subst. cbn [fold_left] in Hp.
      refine (IH _ _ _ p Hp); [assumption|]. intros p'. apply ins_keys; assumption. }
    refine (G [] _ key _); [|rewrite E; discriminate]. intros [|a p'] K; [constructor|contradiction]. }
  destruct (merge_none _ (CTable m) _ (unflatten_wf order) E) as [G|G]; [left|right; exact G].
  unfold get. rewrite G, (file_search m key Nk). destruct L as [(f & Hf & Ho)|(Hf & ->)].
  - left. exists f, m. auto.
  - right. split; [exact Hf|]. destruct key as [|k [|k' key]]; [contradiction|reflexivity|reflexivity].
Qed.
Print Assumptions C79_unreachable.

(* ------------------------------------------------------------------ *)
(** * Examples and refutations *)
Definition ex_file : table :=
  [("runtime", CTable [("type", CText "docker"); ("shell", CTable [("cmd", CTexts ["bash"; "-c"])])]);
   ("mounts", CTable [("bind", CTable [("sources", CTexts [])])]);
   ("datastore", CTable [("postgres", CTable [("max_open_conns", COther 25)])])]%string.
Definition ex_open (p : string) : conf_file := if String.eqb p "config.toml" then FTable ex_file else FMissing.
Definition ex_env : list (string * string) :=
  [("PATH", "/bin"); ("TORK_RUNTIME_TYPE", "podman"); ("TORK_LOGGING_LEVEL", "warn"); ("TORK_DATASTORE_POSTGRES_MAX_OPEN_CONNS", "7")]%string.
Example C79_example : exists c, load_config ex_open ex_env (rev (settings ex_env)) = Some c /\
  get c ["runtime"; "type"]%string = Some (CText "podman") /\
  strings (fun _ => ""%string) c ["runtime"; "shell"; "cmd"]%string = ["bash"; "-c"]%string /\
  string_default (fun _ => ""%string) c ["logging"; "level"]%string "debug" = "warn"%string /\
  string_default (fun _ => ""%string) c ["broker"; "type"]%string "inmemory" = "inmemory"%string.
Proof. eexists. split; [vm_compute; reflexivity|]. split; [reflexivity|]. split; [reflexivity|]. split; reflexivity. Qed.
Example C79_example_no_clash : no_clash ex_env.
Proof.
  intros n p m q Hn Hm En Em (x & r & ->). cbn in Hn, Hm.
  destruct Hn as [<-|[<-|[<-|[<-|[]]]]], Hm as [<-|[<-|[<-|[<-|[]]]]]; vm_compute in En, Em; try discriminate;
  injection En as <-; discriminate.
Qed.
(** README: "TORK_ + property path with dots replaced by underscores": not for the connection settings *)
Theorem C79_underscore_refuted : exists env c,
  In (variable ["datastore"; "postgres"; "max_open_conns"], "7")%string env /\
  load_config ex_open env (settings env) = Some c /\ get c ["datastore"; "postgres"; "max_open_conns"]%string = Some (COther 25).
Proof. exists ex_env. eexists. split; [right; right; right; left; reflexivity|]. split; [vm_compute; reflexivity|reflexivity]. Qed.
Print Assumptions C79_underscore_refuted.
(** the configuration in the home directory is never found *)
Definition home_fs (p : path) : conf_file := if path_eqb p (abs "/home/me/tork/config.toml") then FTable ex_file else FMissing.
Theorem C79_home_refuted : exists c,
  home_fs (abs "/home/me/tork/config.toml") = FTable ex_file /\
  load_config (opens home_fs (abs "/home/me")) [("HOME", "/home/me")]%string [] = Some c /\ get c ["runtime"; "type"]%string = None.
Proof. eexists. split; [reflexivity|]. split; [vm_compute; reflexivity|reflexivity]. Qed.
Print Assumptions C79_home_refuted.
(** an empty list in the file is read as a list of one text *)
Theorem C79_empty_list_refuted : exists c,
  load_config ex_open [] [] = Some c /\ get c ["mounts"; "bind"; "sources"]%string = Some (CTexts []) /\
  strings (fun _ => ""%string) c ["mounts"; "bind"; "sources"]%string = ["[]"]%string.
Proof. eexists. split; [vm_compute; reflexivity|]. split; reflexivity. Qed.
Print Assumptions C79_empty_list_refuted.
(** variables that clash: the outcome depends on the order of a Go map *)
Theorem C79_clash_refuted : exists env o o' c c',
  Permutation o (settings env) /\ Permutation o' (settings env) /\
  load_config (fun _ => FMissing) env o = Some c /\ load_config (fun _ => FMissing) env o' = Some c' /\
  get c ["runtime"; "type"]%string = None /\ get c' ["runtime"; "type"]%string = None /\
  get c ["type"]%string = Some (CText "podman") /\ get c' ["type"]%string = None.
Proof.
  exists [("TORK_RUNTIME", "x"); ("TORK_RUNTIME_TYPE", "podman")]%string.
  exists [(["runtime"], "x"); (["runtime"; "type"], "podman")]%string, [(["runtime"; "type"], "podman"); (["runtime"], "x")]%string.
  eexists. eexists. split; [apply Permutation_refl|]. split; [apply perm_swap|]. split; [vm_compute; reflexivity|]. split; [vm_compute; reflexivity|].
  split; [reflexivity|]. split; [reflexivity|]. split; reflexivity.
Qed.
Print Assumptions C79_clash_refuted.
