(** C78: which credentials go to which registry.  runtime/docker/reference.go:14-144 (parseRef), runtime/docker/auth.go:32-160
    (getRegistryCredentials, decodeBase64Auth, getCredentialsFromHelper), runtime/docker/docker.go:395-420.
    Simplifications: texts are lists of bytes (reference.go's expressions name ASCII bytes only); the credential helpers are
    programs whose answers are arbitrary; the decoding of the configuration's JSON is not modelled. *)
From Coq Require Import List Ascii String Bool Lia NArith ZArith ZifyN.
From Verif Require Import Types Regex Images.
Import ListNotations.
Local Open Scope list_scope.
Local Open Scope nat_scope.

(* ------------------------------------------------------------------ *)
(** * Model: references *)
Definition between (lo hi c : ascii) : bool := (N.leb (N_of_ascii lo) (N_of_ascii c) && N.leb (N_of_ascii c) (N_of_ascii hi))%bool.
Definition lower := between "a" "z".
Definition upper := between "A" "Z".
Definition digit := between "0" "9".
Definition among (l : string) (c : ascii) : bool := existsb (Ascii.eqb c) (list_ascii_of_string l).
Definition lowdig c := lower c || digit c.
Definition alpha c := lower c || upper c.
Definition alnum c := alpha c || digit c.
Definition word c := alnum c || Ascii.eqb c "_".
Definition xdigit c := digit c || between "a" "f" c || between "A" "F" c.
(** reference.go:17 *)
Definition alphaNumericRe := plus (Chr lowdig).
(** reference.go:22: [._] | __ | -* *)
Definition separatorRe := Alt (Chr (among "._")) (Alt (Seq (lit "_") (lit "_")) (Star (lit "-"))).
(** reference.go:27-29 *)
Definition nameComponentRe := Seq alphaNumericRe (opt (plus (Seq separatorRe alphaNumericRe))).
(** reference.go:34 *)
Definition domainComponentRe :=
  Alt (Chr alnum) (Seq (Chr alnum) (Seq (Star (Chr (fun c => alnum c || Ascii.eqb c "-"))) (Chr alnum))).
(** reference.go:40-43 *)
Definition domainRe :=
  Seq domainComponentRe (Seq (opt (plus (Seq (lit ".") domainComponentRe))) (opt (Seq (lit ":") (plus (Chr digit))))).
(** reference.go:46 *)
Definition tagRe := Seq (Chr word) (upto 127 (Chr (fun c => word c || among ".-" c))).
(** reference.go:49 *)
Definition digestRe :=
  Seq (Chr alpha) (Seq (Star (Chr alnum)) (Seq (Star (Seq (Chr (among "-_+.")) (Seq (Chr alpha) (Star (Chr alnum)))))
    (Seq (lit ":") (times 32 (Chr xdigit) (Star (Chr xdigit)))))).
Definition pathRe := Seq nameComponentRe (opt (plus (Seq (lit "/") nameComponentRe))).
(** reference.go:54-57 *)
Definition nameRe := Seq (opt (Seq domainRe (lit "/"))) pathRe.
(** reference.go:61-64 *)
Definition anchoredNameRe := Seq (opt (Seq (Cap 1 domainRe) (lit "/"))) (Cap 2 pathRe).
(** reference.go:69-71 *)
Definition referenceRe := Seq (Cap 1 nameRe) (Seq (opt (Seq (lit ":") (Cap 2 tagRe))) (opt (Seq (lit "@") (Cap 3 digestRe)))).

Record reference := mkRef { ref_domain : text; ref_path : text; ref_tag : text }.
(** reference.go:99-130; [None]: an error *)
Definition parse_ref (s : text) : option reference :=
  match find_groups referenceRe s with
  | None => None
  | Some k =>
      if Nat.ltb 255 (List.length (group 1 k)) then None
      else match find_groups anchoredNameRe (group 1 k) with
           | Some k' => Some (mkRef (group 1 k') (group 2 k') (group 2 k))
           | None => Some (mkRef [] (group 1 k) (group 2 k))
           end
  end.
Definition domain_of (image : string) : option string :=
  option_map (fun r => string_of_list_ascii (ref_domain r)) (parse_ref (list_ascii_of_string image)).

(* ------------------------------------------------------------------ *)
(** * Model: the credentials of a registry *)
(** encoding/base64 StdEncoding.Decode: line breaks are skipped, padding ends the text, spare bits are not checked *)
Definition b64val (c : ascii) : option N :=
  if upper c then Some (N_of_ascii c - 65)%N
  else if lower c then Some (N_of_ascii c - 71)%N
  else if digit c then Some (N_of_ascii c + 4)%N
  else if Ascii.eqb c "+" then Some 62%N else if Ascii.eqb c "/" then Some 63%N else None.
Fixpoint b64dec (l : text) : option (list N) :=
  match l with
  | [] => Some []
  | a :: b :: c :: d :: rest =>
      match b64val a, b64val b with
      | Some a, Some b =>
          let x := (a * 4 + b / 16)%N in
          if Ascii.eqb c "=" then (if Ascii.eqb d "=" then match rest with [] => Some [x] | _ => None end else None)
          else match b64val c with
               | None => None
               | Some c =>
                   let y := ((b mod 16) * 16 + c / 4)%N in
                   if Ascii.eqb d "=" then match rest with [] => Some [x; y] | _ => None end
                   else match b64val d, b64dec rest with
                        | Some d, Some l => Some (x :: y :: ((c mod 4) * 64 + d)%N :: l)
                        | _, _ => None
                        end
               end
      | _, _ => None
      end
  | _ => None
  end.
Definition newline (c : ascii) : bool := Ascii.eqb c "010" || Ascii.eqb c "013".
(** strings.SplitN(s, ":", 2) *)
Fixpoint cut (l : list N) : option (list N * list N) :=
  match l with
  | [] => None
  | c :: l => if N.eqb c 58 then Some ([], l) else match cut l with Some (a, b) => Some (c :: a, b) | None => None end
  end.
(** strings.Trim(s, "\x00") *)
Fixpoint trim_left (l : list N) : list N := match l with 0%N :: l => trim_left l | l => l end.
Definition trim0 (l : list N) : list N := rev (trim_left (rev (trim_left l))).
Definition str (l : list N) : string := string_of_list_ascii (map ascii_of_N l).
(** auth.go:81-106; the buffer has the greatest possible length and is used whole *)
Definition decode_auth (s : string) : option (string * string) :=
  if String.eqb s "" then Some ("", "")%string
  else let l := list_ascii_of_string s in
       match b64dec (filter (fun c => negb (newline c)) l) with
       | None => None
       | Some d =>
           let decoded := d ++ repeat 0%N (List.length l / 4 * 3 - List.length d) in
           match cut decoded with None => None | Some (u, p) => Some (str u, str (trim0 p)) end
       end.

(** config.go:3-30, 40-60: the fields used *)
Record login := mkLogin { lg_user : string; lg_pass : string; lg_auth : string; lg_token : string }.
Record dconfig := mkDconfig { dc_helpers : smap; dc_store : string; dc_auths : list (string * login) }.
Inductive loaded := LMissing | LBad | LConfig (c : dconfig).
(** what a credential helper answers about a registry *)
Inductive hanswer := HAbsent (* not installed *) | HNone (* "credentials not found" *) | HError | HCreds (user secret : string).
Section Lookup.
Variable helper : string -> string -> hanswer.       (* program, registry *)
Variable default_helper : string.                    (* auth.go:163-179 *)
(** auth.go:118-160 *)
Definition from_helper (h host : string) : option (string * string) :=
  let h := if String.eqb h "" then default_helper else h in
  if String.eqb h "" then Some ("", "")%string
  else match helper h host with
       | HAbsent => Some ("", "")%string
       | HNone => Some ("", "")%string
       | HError => None
       | HCreds u s => Some ((if String.eqb u "<token>" then "" else u)%string, s)
       end.
Definition lookup {A} (m : list (string * A)) (k : string) : option A := option_map snd (find (fun p => String.eqb (fst p) k) m).
(** auth.go:46-75 *)
Definition config_lookup (c : dconfig) (host : string) : option (string * string) :=
  match lookup (dc_helpers c) host with
  | Some h => from_helper h host
  | None =>
      if negb (String.eqb (dc_store c) "") then from_helper (dc_store c) host
      else match lookup (dc_auths c) host with
           | None => from_helper "" host
           | Some a =>
               if negb (String.eqb (lg_token a) "") then Some (""%string, lg_token a)
               else if negb (String.eqb (lg_user a) "") && negb (String.eqb (lg_pass a) "") then Some (lg_user a, lg_pass a)
               else decode_auth (lg_auth a)
           end
  end.
(** auth.go:32-44 *)
Definition registry_credentials (f : loaded) (host : string) : option (string * string) :=
  match f with LMissing => from_helper "" host | LBad => None | LConfig c => config_lookup c host end.
(** docker.go:395-420: username and password sent with a pull ([Images.auth]) *)
Definition pull_credentials (f : loaded) (q : req) : option (string * string) := auth domain_of (registry_credentials f) q.
End Lookup.

(* ------------------------------------------------------------------ *)
(** * Specification *)
Definition t_ (s : string) : text := list_ascii_of_string s.
(** The registry the engine pulls from (the distribution reference rule): what is before the first "/" if it has a "." or ":"
    or an upper-case letter or is "localhost"; otherwise Docker Hub. *)
Fixpoint before_slash (s : text) : option text :=
  match s with
  | [] => None
  | c :: s => if Ascii.eqb c "/" then Some [] else option_map (cons c) (before_slash s)
  end.
Definition registry_like (d : text) : bool :=
  existsb (Ascii.eqb ".") d || existsb (Ascii.eqb ":") d || existsb upper d || String.eqb (string_of_list_ascii d) "localhost".
Definition engine_host (s : text) : string :=
  match before_slash s with
  | None => "docker.io"
  | Some d => if registry_like d
              then (if String.eqb (string_of_list_ascii d) "index.docker.io" then "docker.io" else string_of_list_ascii d)
              else "docker.io"
  end.
(** base64 *)
Definition b64char (n : N) : ascii :=
  if N.ltb n 26 then ascii_of_N (n + 65) else if N.ltb n 52 then ascii_of_N (n + 71)
  else if N.ltb n 62 then ascii_of_N (n - 4) else if N.eqb n 62 then "+"%char else "/"%char.
Fixpoint b64enc (l : list N) : text :=
  match l with
  | [] => []
  | [x] => [b64char (x / 4); b64char ((x mod 4) * 16); "="; "="]%char
  | [x; y] => [b64char (x / 4); b64char ((x mod 4) * 16 + y / 16); b64char ((y mod 16) * 4); "="]%char
  | x :: y :: z :: l => b64char (x / 4) :: b64char ((x mod 4) * 16 + y / 16) :: b64char ((y mod 16) * 4 + z / 64) :: b64char (z mod 64) :: b64enc l
  end.
Definition bytes (s : string) : list N := map N_of_ascii (list_ascii_of_string s).
(** what "docker login" stores: base64 of user:password *)
Definition stored (user pass : string) : string := string_of_list_ascii (b64enc (bytes (user ++ ":" ++ pass))).

(* ------------------------------------------------------------------ *)
(** * Proofs: references *)
Lemma in_seq a b s c rest k : In (c, rest, k) (ways (Seq a b) s) <->
  exists c1 r1 k1 c2 k2, In (c1, r1, k1) (ways a s) /\ In (c2, rest, k2) (ways b r1) /\ c = c1 ++ c2 /\ k = k1 ++ k2.
Proof.
  cbn [ways]. rewrite in_flat_map. split.
  - intros ([[c1 r1] k1] & H1 & H2). apply in_map_iff in H2 as ([[c2 r2] k2] & E & H2). cbn in E. injection E as <- <- <-.
    exists c1, r1, k1, c2, k2. auto.
  - intros (c1 & r1 & k1 & c2 & k2 & H1 & H2 & -> & ->). exists (c1, r1, k1). split; [exact H1|]. apply in_map_iff. exists (c2, rest, k2). auto.
Qed.
Lemma in_cap n r s c rest k : In (c, rest, k) (ways (Cap n r) s) <-> exists k', In (c, rest, k') (ways r s) /\ k = (n, c) :: k'.
Proof.
  cbn [ways]. rewrite in_map_iff. split.
  - intros ([[c1 r1] k1] & E & H). injection E as <- <- <-. exists k1. auto.
  - intros (k' & H & ->). exists (c, rest, k'). auto.
Qed.
Lemma in_opt r s c rest k : In (c, rest, k) (ways (opt r) s) <-> In (c, rest, k) (ways r s) \/ (c = [] /\ rest = s /\ k = []).
Proof.
  unfold opt. cbn [ways]. rewrite in_app_iff. cbn [In]. split.
  - intros [H|[H|[]]]; [left; exact H|]. injection H as <- <- <-. auto.
  - intros [H|(-> & -> & ->)]; auto.
Qed.
Lemma in_lit x s c rest k : In (c, rest, k) (ways (lit x) s) <-> c = [x] /\ s = x :: rest /\ k = [].
Proof.
  unfold lit. cbn [ways]. destruct s as [|y s]; [split; [intros []|intros (_ & H & _); discriminate]|].
  destruct (Ascii.eqb_spec x y) as [<-|Hne]; cbn [In].
  - split; [intros [H|[]]; injection H as <- <- <-; auto|]. intros (-> & E & ->). injection E as ->. auto.
  - split; [intros []|]. intros (_ & E & _). injection E as -> _. contradiction.
Qed.
Lemma find_app {A} (f : A -> bool) l l' : find f (l ++ l') = match find f l with Some x => Some x | None => find f l' end.
Proof. induction l as [|a l IH]; [reflexivity|]. cbn. destruct (f a); [reflexivity|exact IH]. Qed.

(** what the letters of a described text are *)
Fixpoint letters (p : ascii -> Prop) (r : re) : Prop :=
  match r with Eps => True | Chr q => forall c, q c = true -> p c | Seq a b => letters p a /\ letters p b
  | Alt a b => letters p a /\ letters p b | Star r => letters p r | Cap _ r => letters p r end.
Lemma lang_letters p r s : lang r s -> letters p r -> Forall p s.
Proof.
  intros H. induction H; cbn [letters]; intros L.
  - constructor.
  - constructor; [exact (L _ H)|constructor].
  - apply Forall_app. split; [apply IHlang1|apply IHlang2]; apply L.
  - apply IHlang, L.
  - apply IHlang, L.
  - constructor.
  - apply Forall_app. split; [apply IHlang1|apply IHlang2]; exact L.
  - exact (IHlang L).
Qed.
Lemma domain_no_slash d : lang domainRe d -> ~ In "/"%char d.
Proof.
  intros H. assert (F : Forall (fun c => c <> "/"%char) d).
  { apply (lang_letters _ _ _ H). cbn [letters domainRe domainComponentRe opt plus lit].
    repeat split; intros c Hc ->; vm_compute in Hc; discriminate. }
  intros Hin. rewrite Forall_forall in F. exact (F _ Hin eq_refl).
Qed.
(** non-empty *)
Fixpoint nonempty (r : re) : bool :=
  match r with Eps => false | Chr _ => true | Seq a b => nonempty a || nonempty b | Alt a b => nonempty a && nonempty b
  | Star _ => false | Cap _ r => nonempty r end.
Lemma lang_nonempty r s : lang r s -> nonempty r = true -> s <> [].
Proof.
  intros H. induction H; cbn [nonempty]; intros N; try discriminate.
  - apply orb_prop in N as [N|N]; intros E; apply app_eq_nil in E as (E1 & E2); [exact (IHlang1 N E1)|exact (IHlang2 N E2)].
  - apply andb_prop in N as (N & _). exact (IHlang N).
  - apply andb_prop in N as (_ & N). exact (IHlang N).
  - exact (IHlang N).
Qed.

Lemma find_groups_way r s k : find_groups r s = Some k -> In (s, [], k) (ways r s).
Proof.
  unfold find_groups. destruct (find whole (ways r s)) as [[[c rest] k']|] eqn:E; [|discriminate]. intros H. injection H as <-.
  apply find_some in E as (Hin & Hw). destruct rest; [|discriminate]. destruct (ways_sound _ _ _ _ _ Hin) as (-> & _).
  rewrite app_nil_r in *. exact Hin.
Qed.

(** the parts of a matched reference *)
Lemma reference_parts s k : find_groups referenceRe s = Some k ->
  exists tg dg, s = group 1 k ++ tg ++ dg /\ lang nameRe (group 1 k) /\
    (tg = [] /\ group 2 k = [] \/ tg = ":"%char :: group 2 k /\ lang tagRe (group 2 k)) /\
    (dg = [] \/ exists h, dg = "@"%char :: h /\ lang digestRe h).
Proof.
  intros H. apply find_groups_way in H. unfold referenceRe in H.
  apply in_seq in H as (c1 & r1 & k1 & c2 & k2 & H1 & H2 & Es & ->).
  apply in_cap in H1 as (k1' & H1 & ->). destruct (ways_sound _ _ _ _ _ H1) as (E1 & L1).
  rewrite (plain_ways nameRe eq_refl _ _ _ _ H1). clear H1 k1'.
  apply in_seq in H2 as (c3 & r3 & k3 & c4 & k4 & H3 & H4 & -> & ->).
  change (group 1 ([(1, c1)] ++ k3 ++ k4)) with c1. change (group 2 ([(1, c1)] ++ k3 ++ k4)) with (group 2 (k3 ++ k4)).
  exists c3, c4. split; [exact Es|]. split; [exact L1|].
  assert (D : c4 = [] /\ k4 = [] \/ exists h, c4 = "@"%char :: h /\ lang digestRe h /\ k4 = [(3, h)]).
  { apply in_opt in H4 as [H4|(-> & _ & ->)]; [|left; auto]. right.
    apply in_seq in H4 as (c5 & r5 & k5 & c6 & k6 & H5 & H6 & -> & ->). apply in_lit in H5 as (-> & _ & ->).
    apply in_cap in H6 as (k6' & H6 & ->). rewrite (plain_ways digestRe eq_refl _ _ _ _ H6). exists c6. split; [reflexivity|].
    split; [exact (proj2 (ways_sound _ _ _ _ _ H6))|reflexivity]. }
  assert (T : c3 = [] /\ k3 = [] \/ exists t, c3 = ":"%char :: t /\ lang tagRe t /\ k3 = [(2, t)]).
  { apply in_opt in H3 as [H3|(-> & _ & ->)]; [|left; auto]. right.
    apply in_seq in H3 as (c5 & r5 & k5 & c6 & k6 & H5 & H6 & -> & ->). apply in_lit in H5 as (-> & _ & ->).
    apply in_cap in H6 as (k6' & H6 & ->). rewrite (plain_ways tagRe eq_refl _ _ _ _ H6). exists c6. split; [reflexivity|].
    split; [exact (proj2 (ways_sound _ _ _ _ _ H6))|reflexivity]. }
  split; [|destruct D as [(-> & _)|(h & -> & L & _)]; [left; reflexivity|right; exists h; auto]].
  destruct T as [(-> & ->)|(t & -> & L & ->)].
  - left. split; [reflexivity|]. destruct D as [(_ & ->)|(h & _ & _ & ->)]; reflexivity.
  - right. split; [reflexivity|exact L].
Qed.
(** the parts of a name *)
Lemma name_parts s k : find_groups anchoredNameRe s = Some k ->
  (group 1 k = [] /\ group 2 k = s /\ lang pathRe s /\ forall d p, lang domainRe d -> lang pathRe p -> s <> d ++ "/"%char :: p) \/
  (lang domainRe (group 1 k) /\ lang pathRe (group 2 k) /\ s = group 1 k ++ "/"%char :: group 2 k).
Proof.
  unfold find_groups, anchoredNameRe, opt. cbn [ways]. rewrite flat_map_app, find_app.
  set (A := flat_map _ (flat_map _ _)).
  assert (HA : forall c rest k, In (c, rest, k) A ->
    exists d p, c = d ++ "/"%char :: p /\ s = c ++ rest /\ lang domainRe d /\ lang pathRe p /\ k = [(1, d); (2, p)]).
  { intros c rest k' Hin. unfold A in Hin.
    change (In (c, rest, k') (ways (Seq (Seq (Cap 1 domainRe) (lit "/")) (Cap 2 pathRe)) s)) in Hin.
    destruct (ways_sound _ _ _ _ _ Hin) as (Es & _).
    apply in_seq in Hin as (c1 & r1 & k1 & c2 & k2 & H1 & H2 & -> & ->).
    apply in_seq in H1 as (c3 & r3 & k3 & c4 & k4 & H3 & H4 & -> & ->).
    apply in_cap in H3 as (k3' & H3 & ->). apply in_lit in H4 as (-> & _ & ->). apply in_cap in H2 as (k2' & H2 & ->).
    rewrite (plain_ways domainRe eq_refl _ _ _ _ H3), (plain_ways pathRe eq_refl _ _ _ _ H2).
    exists c3, c2. split; [rewrite <- app_assoc; reflexivity|]. split; [exact Es|].
    split; [exact (proj2 (ways_sound _ _ _ _ _ H3))|]. split; [exact (proj2 (ways_sound _ _ _ _ _ H2))|reflexivity]. }
  destruct (find whole A) as [[[c rest] k1]|] eqn:E.
  - intros H. cbn in H. injection H as <-. right. apply find_some in E as (Hin & Hw). destruct rest; [|discriminate].
    destruct (HA _ _ _ Hin) as (d & p & -> & -> & Ld & Lp & ->). rewrite app_nil_r. split; [exact Ld|]. split; [exact Lp|reflexivity].
  - intros H. left.
    assert (N : forall d p, lang domainRe d -> lang pathRe p -> s <> d ++ "/"%char :: p).
    { intros d p Ld Lp ->.
      assert (L : lang (Seq (Seq (Cap 1 domainRe) (lit "/")) (Cap 2 pathRe)) (d ++ "/"%char :: p)).
      { change (d ++ "/"%char :: p) with (d ++ ["/"%char] ++ p). rewrite app_assoc. constructor; [constructor; [constructor; exact Ld|]|constructor; exact Lp].
        constructor. reflexivity. }
      destruct (ways_complete _ _ [] L) as (k' & I). rewrite app_nil_r in I.
      exact (diff_true_false (find_none _ _ E _ I)). }
    cbn [flat_map] in H. rewrite app_nil_r in H.
    match type of H with context [find whole ?l] => destruct (find whole l) as [[[c rest] k1]|] eqn:E2 end; [|discriminate]. cbn in H. injection H as <-.
    apply find_some in E2 as (Hin & Hw). destruct rest; [|discriminate].
    apply in_map_iff in Hin as ([[c2 r2] k2] & Ea & Hin). cbn in Ea. injection Ea as <- -> <-.
    apply (in_cap 2 pathRe s c2 [] k2) in Hin as (k2' & Hin & ->). rewrite (plain_ways pathRe eq_refl _ _ _ _ Hin).
    destruct (ways_sound _ _ _ _ _ Hin) as (-> & L). rewrite app_nil_r in *.
    split; [reflexivity|]. split; [reflexivity|]. split; [exact L|exact N].
Qed.
Lemma name_found s : lang nameRe s -> exists k, find_groups anchoredNameRe s = Some k.
Proof.
  intros H. apply find_groups_lang. unfold nameRe in H. inversion H as [| |? ? x y Hx Hy| | | | |]; subst. unfold anchoredNameRe. constructor; [|constructor; exact Hy].
  unfold opt in *. inversion Hx as [| | |? ? ? Hx'|? ? ? Hx'| | |]; subst.
  - apply l_alt1. inversion Hx'; subst. constructor; [constructor|]; assumption.
  - apply l_alt2. exact Hx'.
Qed.

(** C78: what an image reference says: its parts make up the reference, and the registry is what is before the first "/",
    whenever that can be one. *)
Theorem C78_reference : forall s r, parse_ref s = Some r ->
  exists name tg dg, s = name ++ tg ++ dg /\
    (tg = [] /\ ref_tag r = [] \/ tg = ":"%char :: ref_tag r /\ ref_tag r <> []) /\
    (dg = [] \/ exists h, dg = "@"%char :: h) /\ List.length name <= 255 /\
    ((ref_domain r = [] /\ ref_path r = name /\ forall d p, lang domainRe d -> lang pathRe p -> name <> d ++ "/"%char :: p) \/
     (ref_domain r <> [] /\ ~ In "/"%char (ref_domain r) /\ name = ref_domain r ++ "/"%char :: ref_path r)).
Proof.
  intros s r H. unfold parse_ref in H. destruct (find_groups referenceRe s) as [k|] eqn:E; [|discriminate].
  destruct (Nat.ltb 255 (List.length (group 1 k))) eqn:El; [discriminate|]. apply Nat.ltb_ge in El.
  destruct (reference_parts s k E) as (tg & dg & Es & Ln & Ht & Hd).
  destruct (name_found _ Ln) as (k' & E'). rewrite E' in H. injection H as <-. cbn [ref_domain ref_path ref_tag].
  exists (group 1 k), tg, dg. split; [exact Es|].
  split; [destruct Ht as [Ht|(-> & L)]; [left; exact Ht|right; split; [reflexivity|exact (lang_nonempty _ _ L eq_refl)]]|].
  split; [destruct Hd as [->|(h & -> & _)]; [left; reflexivity|right; exists h; reflexivity]|]. split; [exact El|].
  destruct (name_parts _ _ E') as [(A & B & _ & C)|(Ld & Lp & En)].
  - left. auto.
  - right. split; [exact (lang_nonempty _ _ Ld eq_refl)|]. split; [exact (domain_no_slash _ Ld)|exact En].
Qed.
Print Assumptions C78_reference.

(** C78: only well-formed references are accepted, and all of them of at most 255 letters. *)
Theorem C78_accepted : forall s,
  (forall r, parse_ref s = Some r -> lang referenceRe s) /\
  (lang referenceRe s -> List.length s <= 255 -> exists r, parse_ref s = Some r).
Proof.
  intros s. unfold parse_ref. split.
  - intros r H. destruct (find_groups referenceRe s) as [k|] eqn:E; [|discriminate].
    apply find_groups_lang. exists k. exact E.
  - intros L Hl. apply find_groups_lang in L as (k & E). rewrite E.
    destruct (reference_parts s k E) as (tg & dg & Es & _).
    assert (El : List.length (group 1 k) <= 255) by (apply (f_equal (@List.length ascii)) in Es; rewrite !app_length in Es; lia).
    apply Nat.ltb_ge in El. rewrite El. destruct (find_groups anchoredNameRe (group 1 k)); eexists; reflexivity.
Qed.
Print Assumptions C78_accepted.

Lemma before_slash_app d p : ~ In "/"%char d -> before_slash (d ++ "/"%char :: p) = Some d.
Proof.
  induction d as [|c d IH]; intros H; [reflexivity|]. cbn.
  destruct (Ascii.eqb_spec c "/"%char) as [->|_]; [exfalso; apply H; left; reflexivity|].
  rewrite IH; [reflexivity|]. intros Hin. apply H. right. exact Hin.
Qed.
Lemma string_text d : list_ascii_of_string (string_of_list_ascii d) = d.
Proof. apply list_ascii_of_string_of_list_ascii. Qed.

(** C78: the credentials looked up for an image are those of a registry whose name begins the image's reference; and if that
    name looks like a registry to the engine, it is the one the engine pulls from. *)
Theorem C78_right_registry : forall helper dh f image pass us pw d,
  domain_of image = Some d -> pull_credentials helper dh f (Req image ""%string pass) = Some (us, pw) ->
  (d = ""%string /\ us = ""%string /\ pw = ""%string) \/
  (d <> ""%string /\ registry_credentials helper dh f d = Some (us, pw) /\ (exists rest, image = (d ++ "/" ++ rest)%string) /\
   (registry_like (t_ d) = true -> engine_host (t_ image) = d \/ d = "index.docker.io"%string /\ engine_host (t_ image) = "docker.io"%string)).
Proof.
  intros helper dh f image pass us pw d Hd H. unfold pull_credentials, auth in H. cbn [r_user r_image String.eqb] in H. rewrite Hd in H.
  destruct (String.eqb_spec d "") as [->|Hne]; [injection H as <- <-; left; auto|]. right.
  split; [exact Hne|]. split; [exact H|]. unfold domain_of in Hd.
  destruct (parse_ref (list_ascii_of_string image)) as [r|] eqn:E; [|discriminate]. cbn in Hd. injection Hd as Hd.
  destruct (C78_reference _ _ E) as (name & tg & dg & Es & _ & _ & _ & [(Hr & _)|(Hr & Hns & En)]).
  - exfalso. rewrite Hr in Hd. cbn in Hd. congruence.
  - assert (Et : list_ascii_of_string image = t_ d ++ "/"%char :: ref_path r ++ tg ++ dg).
    { rewrite Es, En. unfold t_. rewrite <- Hd, string_text. rewrite <- app_assoc. reflexivity. }
    split.
    + exists (string_of_list_ascii (ref_path r ++ tg ++ dg)).
      rewrite <- (string_of_list_ascii_of_string image), Et. unfold t_. generalize (ref_path r ++ tg ++ dg) as l. clear. intros l.
      induction d as [|c d IH]; [reflexivity|]. cbn [list_ascii_of_string app string_of_list_ascii String.append]. f_equal. exact IH.
    + intros Hl. unfold engine_host. replace (t_ image) with (t_ d ++ "/"%char :: ref_path r ++ tg ++ dg) by (symmetry; exact Et).
      assert (Hns' : ~ In "/"%char (t_ d)) by (unfold t_; rewrite <- Hd, string_text; exact Hns).
      rewrite (before_slash_app _ _ Hns'), Hl. unfold t_. rewrite string_of_list_ascii_of_string.
      destruct (String.eqb_spec d "index.docker.io") as [->|]; [right; auto|left; reflexivity].
Qed.
Print Assumptions C78_right_registry.

(** C78: what is looked up for a registry does not depend on what is configured for others. *)
Theorem C78_only_this_registry : forall helper helper' dh c c' host,
  (forall h, helper h host = helper' h host) ->
  lookup (dc_helpers c) host = lookup (dc_helpers c') host -> dc_store c = dc_store c' ->
  lookup (dc_auths c) host = lookup (dc_auths c') host ->
  registry_credentials helper dh (LConfig c) host = registry_credentials helper' dh (LConfig c') host.
Proof.
  intros helper helper' dh c c' host Hh H1 H2 H3. unfold registry_credentials, config_lookup. rewrite H1, H2, H3.
  assert (F : forall h, from_helper helper dh h host = from_helper helper' dh h host) by (intros h; unfold from_helper; rewrite Hh; reflexivity).
  destruct (lookup (dc_helpers c') host); [apply F|]. destruct (negb (String.eqb (dc_store c') "")); [apply F|].
  destruct (lookup (dc_auths c') host); [reflexivity|apply F].
Qed.
Print Assumptions C78_only_this_registry.

(* ------------------------------------------------------------------ *)
(** * Proofs: base64 *)
Lemma b64val_char n : (n < 64)%N -> b64val (b64char n) = Some n /\ Ascii.eqb (b64char n) "=" = false /\ newline (b64char n) = false.
Proof.
  intros H.
  assert (G : forall m, m < 64 -> (match b64val (b64char (N.of_nat m)) with Some x => N.eqb x (N.of_nat m) | None => false end) &&
                                  negb (Ascii.eqb (b64char (N.of_nat m)) "=") && negb (newline (b64char (N.of_nat m))) = true).
  { intros m Hm.
    assert (A : forallb (fun m => (match b64val (b64char (N.of_nat m)) with Some x => N.eqb x (N.of_nat m) | None => false end) &&
                                  negb (Ascii.eqb (b64char (N.of_nat m)) "=") && negb (newline (b64char (N.of_nat m)))) (seq 0 64) = true)
      by (vm_compute; reflexivity).
    rewrite forallb_forall in A. apply A. apply List.in_seq. lia. }
  specialize (G (N.to_nat n)). rewrite N2Nat.id in G. assert (Hn : N.to_nat n < 64) by lia. specialize (G Hn).
  apply andb_prop in G as (G & G3). apply andb_prop in G as (G1 & G2).
  destruct (b64val (b64char n)) as [x|]; [|discriminate]. apply N.eqb_eq in G1. subst x.
  split; [reflexivity|]. split; [apply negb_true_iff; exact G2|apply negb_true_iff; exact G3].
Qed.
Definition byte (n : N) : Prop := (n < 256)%N.
Lemma groups3 (P : list N -> Prop) : P [] -> (forall x, P [x]) -> (forall x y, P [x; y]) ->
  (forall x y z l, P l -> P (x :: y :: z :: l)) -> forall l, P l.
Proof.
  intros H0 H1 H2 H3. fix IH 1. intros [|x [|y [|z l]]]; [exact H0|apply H1|apply H2|apply H3, IH].
Qed.
Ltac sextets := match goal with |- (_ < 64)%N => idtac end; unfold byte in *;
  zify; Z.div_mod_to_equations; lia.
Ltac solve_bytes := unfold byte in *; zify; Z.div_mod_to_equations; lia.
Lemma b64_round l : Forall byte l -> b64dec (b64enc l) = Some l /\
  filter (fun c => negb (newline c)) (b64enc l) = b64enc l /\ List.length l <= List.length (b64enc l) / 4 * 3.
Proof.
  induction l as [|x|x y|x y z l IH] using groups3.
  - intros _. split; [reflexivity|]. split; [reflexivity|]. cbn. lia.
  - intros F. inversion F as [|? ? Hx _]; subst.
    assert (A : (x / 4 < 64)%N) by sextets. assert (B : (x mod 4 * 16 < 64)%N) by sextets.
    destruct (b64val_char _ A) as (V1 & _ & N1). destruct (b64val_char _ B) as (V2 & _ & N2).
    cbn [b64enc b64dec filter]. rewrite V1, V2, N1, N2. cbn [negb]. change (newline "=") with false. cbn [negb].
    rewrite Ascii.eqb_refl. split; [f_equal; f_equal; solve_bytes|]. split; [reflexivity|]. cbn. lia.
  - intros F. inversion F as [|? ? Hx F']; subst. inversion F' as [|? ? Hy _]; subst.
    assert (A : (x / 4 < 64)%N) by sextets. assert (B : (x mod 4 * 16 + y / 16 < 64)%N) by sextets.
    assert (C : (y mod 16 * 4 < 64)%N) by sextets.
    destruct (b64val_char _ A) as (V1 & _ & N1). destruct (b64val_char _ B) as (V2 & _ & N2). destruct (b64val_char _ C) as (V3 & E3 & N3).
    cbn [b64enc b64dec filter]. rewrite V1, V2, V3, E3, N1, N2, N3. cbn [negb]. change (newline "=") with false. cbn [negb].
    rewrite Ascii.eqb_refl. split; [f_equal; f_equal; [|f_equal]; solve_bytes|]. split; [reflexivity|]. cbn. lia.
  - intros F. inversion F as [|? ? Hx F1]; subst. inversion F1 as [|? ? Hy F2]; subst. inversion F2 as [|? ? Hz F3]; subst.
    destruct (IH F3) as (D & Fi & Ll).
    assert (A : (x / 4 < 64)%N) by sextets. assert (B : (x mod 4 * 16 + y / 16 < 64)%N) by sextets.
    assert (C : (y mod 16 * 4 + z / 64 < 64)%N) by sextets. assert (E : (z mod 64 < 64)%N) by sextets.
    destruct (b64val_char _ A) as (V1 & _ & N1). destruct (b64val_char _ B) as (V2 & _ & N2).
    destruct (b64val_char _ C) as (V3 & E3 & N3). destruct (b64val_char _ E) as (V4 & E4 & N4).
    cbn [b64enc b64dec filter]. rewrite V1, V2, V3, E3, V4, E4, N1, N2, N3, N4, D. cbn [negb]. rewrite Fi.
    split; [f_equal; f_equal; [|f_equal; [|f_equal]]; solve_bytes|]. split; [reflexivity|].
    cbn [List.length]. change (S (S (S (S (List.length (b64enc l)))))) with (1 * 4 + List.length (b64enc l)).
    rewrite Nat.div_add_l by discriminate. lia.
Qed.
Lemma cut_at u p : ~ In 58%N u -> cut (u ++ 58%N :: p) = Some (u, p).
Proof.
  induction u as [|c u IH]; intros H; [reflexivity|]. cbn. destruct (N.eqb_spec c 58) as [->|_]; [exfalso; apply H; left; reflexivity|].
  rewrite IH; [reflexivity|]. intros Hin. apply H. right. exact Hin.
Qed.
Lemma trim_left_zeros n l : trim_left (repeat 0%N n ++ l) = trim_left l.
Proof. induction n; [reflexivity|exact IHn]. Qed.
Lemma trim_left_id l : hd 1%N l <> 0%N -> trim_left l = l.
Proof. destruct l as [|c l]; [reflexivity|]. cbn. destruct c; [contradiction|reflexivity]. Qed.
Lemma rev_repeat {A} (x : A) n : rev (repeat x n) = repeat x n.
Proof.
  induction n; [reflexivity|]. cbn. rewrite IHn. clear. induction n; [reflexivity|]. cbn. f_equal. exact IHn.
Qed.
Lemma trim0_padded l n : hd 1%N l <> 0%N -> hd 1%N (rev l) <> 0%N -> trim0 (l ++ repeat 0%N n) = l.
Proof.
  intros H1 H2. unfold trim0. destruct l as [|c l].
  - cbn [app]. assert (E : trim_left (repeat 0%N n) = []) by (rewrite <- (app_nil_r (repeat 0%N n)), trim_left_zeros; reflexivity).
    rewrite E. reflexivity.
  - assert (E : trim_left ((c :: l) ++ repeat 0%N n) = (c :: l) ++ repeat 0%N n) by (apply trim_left_id; exact H1).
    rewrite E, rev_app_distr, rev_repeat, trim_left_zeros, (trim_left_id _ H2). apply rev_involutive.
Qed.
Lemma str_bytes s : str (bytes s) = s.
Proof.
  unfold str, bytes. rewrite map_map, <- (string_of_list_ascii_of_string s) at 1. rewrite list_ascii_of_string_of_list_ascii.
  rewrite <- (string_of_list_ascii_of_string s) at 2. f_equal. induction (list_ascii_of_string s) as [|c l IH]; [reflexivity|].
  cbn. rewrite ascii_N_embedding, IH. reflexivity.
Qed.
Lemma bytes_byte s : Forall byte (bytes s).
Proof. unfold bytes. induction (list_ascii_of_string s); constructor; [apply N_ascii_bounded|assumption]. Qed.
Lemma bytes_app a b : bytes (a ++ b) = bytes a ++ bytes b.
Proof. unfold bytes. induction a as [|c a IH]; [reflexivity|]. cbn. rewrite IH. reflexivity. Qed.

(** C78: a login as "docker login" stores it is read back. *)
Theorem C78_stored_login : forall user pass,
  ~ In ":"%char (list_ascii_of_string user) ->
  hd 1%N (bytes pass) <> 0%N -> hd 1%N (rev (bytes pass)) <> 0%N ->
  decode_auth (stored user pass) = Some (user, pass).
Proof.
  intros user pass Hu H1 H2. unfold decode_auth.
  set (raw := bytes (user ++ ":" ++ pass)). assert (Er : raw = bytes user ++ 58%N :: bytes pass).
  { unfold raw. rewrite bytes_app. reflexivity. }
  assert (Hne : stored user pass <> ""%string).
  { unfold stored. fold raw. rewrite Er. destruct (bytes user) as [|a [|b [|c l]]]; cbn; try discriminate; destruct (bytes pass) as [|? [|? ?]]; discriminate. }
  rewrite (proj2 (String.eqb_neq _ _) Hne). unfold stored. fold raw. rewrite string_text.
  destruct (b64_round raw (bytes_byte _)) as (D & F & _). rewrite F, D. clear F D.
  set (n := _ - List.length raw). clearbody n. rewrite Er, <- app_assoc. cbn [app].
  rewrite cut_at, (trim0_padded _ n H1 H2), !str_bytes; [reflexivity|].
  intros Hin. apply Hu. unfold bytes in Hin. apply in_map_iff in Hin as (c & Ec & Hc).
  assert (c = ":"%char) as ->; [|exact Hc]. rewrite <- (ascii_N_embedding c), Ec. reflexivity.
Qed.
Print Assumptions C78_stored_login.

(** C78: with a login stored for a registry (and no credential helper), an image of that registry is pulled with exactly that
    user and password. *)
Theorem C78_pull_with_login : forall helper dh c image pass host user pw a,
  domain_of image = Some host -> host <> ""%string ->
  lookup (dc_helpers c) host = None -> dc_store c = ""%string -> lookup (dc_auths c) host = Some a ->
  lg_token a = ""%string -> lg_user a = ""%string -> lg_auth a = stored user pw ->
  ~ In ":"%char (list_ascii_of_string user) -> hd 1%N (bytes pw) <> 0%N -> hd 1%N (rev (bytes pw)) <> 0%N ->
  pull_credentials helper dh (LConfig c) (Req image ""%string pass) = Some (user, pw).
Proof.
  intros helper dh c image pass host user pw a Hd Hh H1 H2 H3 H4 H5 H6 H7 H8 H9.
  unfold pull_credentials, auth. cbn [r_user r_image String.eqb]. rewrite Hd, (proj2 (String.eqb_neq _ _) Hh).
  unfold registry_credentials, config_lookup. rewrite H1, H2, H3, H4, H5. cbn [String.eqb negb andb]. rewrite H6.
  exact (C78_stored_login user pw H7 H8 H9).
Qed.
Print Assumptions C78_pull_with_login.

(** C78: with a credential helper for the registry, or else a credential store, the pull uses what that program answers:
    the user and the secret; an identity token is sent with an empty user. *)
Theorem C78_pull_with_helper : forall helper dh c image pass host h user secret,
  domain_of image = Some host -> host <> ""%string -> h <> ""%string ->
  (lookup (dc_helpers c) host = Some h \/ lookup (dc_helpers c) host = None /\ dc_store c = h) ->
  helper h host = HCreds user secret ->
  (user <> "<token>"%string -> pull_credentials helper dh (LConfig c) (Req image ""%string pass) = Some (user, secret)) /\
  (user = "<token>"%string -> pull_credentials helper dh (LConfig c) (Req image ""%string pass) = Some (""%string, secret)).
Proof.
  intros helper dh c image pass host h user secret Hd Hh Hne H Ha.
  assert (E : pull_credentials helper dh (LConfig c) (Req image ""%string pass) = Some ((if String.eqb user "<token>" then "" else user)%string, secret)).
  { unfold pull_credentials, auth. cbn [r_user r_image String.eqb]. rewrite Hd, (proj2 (String.eqb_neq _ _) Hh).
    assert (F : from_helper helper dh h host = Some ((if String.eqb user "<token>" then "" else user)%string, secret)).
    { unfold from_helper. rewrite (proj2 (String.eqb_neq _ _) Hne). cbv zeta. rewrite (proj2 (String.eqb_neq _ _) Hne), Ha. reflexivity. }
    unfold registry_credentials, config_lookup. destruct H as [->|(-> & ->)]; [exact F|].
    rewrite (proj2 (String.eqb_neq _ _) Hne). exact F. }
  rewrite E. split; intros Hu; [rewrite (proj2 (String.eqb_neq _ _) Hu); reflexivity|rewrite Hu; reflexivity].
Qed.
Print Assumptions C78_pull_with_helper.

(** C78: credentials of the task win over everything configured. *)
Theorem C78_task_credentials : forall helper dh f image user pass, user <> ""%string ->
  pull_credentials helper dh f (Req image user pass) = Some (user, pass).
Proof. intros. unfold pull_credentials, auth. cbn [r_user r_pass]. rewrite (proj2 (String.eqb_neq _ _) H). reflexivity. Qed.
Print Assumptions C78_task_credentials.

(* ------------------------------------------------------------------ *)
(** * Examples and refutations *)
Example C78_references :
  map (fun s => option_map (fun r => (string_of_list_ascii (ref_domain r), string_of_list_ascii (ref_path r), string_of_list_ascii (ref_tag r)))
                  (parse_ref (t_ s)))
    ["ubuntu"; "ubuntu:22.04"; "localhost:5000/a/b"; "my.registry.io/team/app:v1"; "foo_bar/baz"; "Foo"; ""; "library/ubuntu"]%string =
  [Some ("", "ubuntu", ""); Some ("", "ubuntu", "22.04"); Some ("localhost:5000", "a/b", ""); Some ("my.registry.io", "team/app", "v1");
   Some ("", "foo_bar/baz", ""); None; None; Some ("library", "ubuntu", "")]%string.
Proof. vm_compute. reflexivity. Qed.
Definition ex_config : dconfig :=
  mkDconfig [] "" [("my.registry.io", mkLogin "" "" (stored "me" "s3cret:x") ""); ("registry", mkLogin "admin" "pw" "" "");
                   ("https://index.docker.io/v1/", mkLogin "hubuser" "hubpass" "" ""); ("tok.io", mkLogin "" "" "" "idtoken")]%string.
Example C78_example :
  pull_credentials (fun _ _ => HAbsent) "pass" (LConfig ex_config) (Req "my.registry.io/team/app:v1" "" "") = Some ("me", "s3cret:x")%string.
Proof. vm_compute. reflexivity. Qed.
(** a registry known by a name without a dot: its credentials are sent to Docker Hub *)
Theorem C78_short_name_refuted : exists image us pw,
  pull_credentials (fun _ _ => HAbsent) "pass" (LConfig ex_config) (Req image "" "") = Some (us, pw) /\
  lookup (dc_auths ex_config) "registry" = Some (mkLogin us pw "" "") /\ engine_host (t_ image) = "docker.io"%string.
Proof. exists "registry/app"%string, "admin"%string, "pw"%string. split; [vm_compute; reflexivity|]. split; reflexivity. Qed.
Print Assumptions C78_short_name_refuted.
(** the login of Docker Hub is never used *)
Theorem C78_hub_login_refuted : exists image,
  engine_host (t_ image) = "docker.io"%string /\ lookup (dc_auths ex_config) "https://index.docker.io/v1/" = Some (mkLogin "hubuser" "hubpass" "" "") /\
  pull_credentials (fun _ _ => HAbsent) "pass" (LConfig ex_config) (Req image "" "") = Some ("", "")%string.
Proof. exists "hubuser/private"%string. split; [reflexivity|]. split; [reflexivity|]. vm_compute. reflexivity. Qed.
Print Assumptions C78_hub_login_refuted.
(** an identity token is sent as the password of nobody *)
Theorem C78_token_refuted : exists image,
  pull_credentials (fun _ _ => HAbsent) "pass" (LConfig ex_config) (Req image "" "") = Some ("", "idtoken")%string.
Proof. exists "tok.io/app"%string. vm_compute. reflexivity. Qed.
Print Assumptions C78_token_refuted.
