(** C90: the files of a task on their way into the container, and its output on its way back: the bytes in between.
    runtime/docker/archive.go (NewTempArchive, WriteFile, Read), runtime/docker/tcontainer.go:514-579 (initTorkdir, initWorkDir),
    456-513 (readOutput, readProgress).  The archive is written by Go's archive/tar Writer on a temporary file and is never closed
    or flushed; the engine takes it apart with the same library's Reader; the output comes back as an archive of the engine's.
    The library is modelled for the USTAR format (writer.go: WriteHeader, writeUSTARHeader, templateV7Plus, writeRawHeader, Flush,
    Close; reader.go: next, readHeader, tryReadFull; strconv.go and format.go of archive/tar).
    Simplified: names that need PAX records (longer than 100 bytes, not ASCII) are not followed further ([WOther]); the reader knows
    USTAR headers of files, directories and other entries without contents only; it accepts the unsigned checksum only; base-256
    numbers are errors.  The calls to the file system succeed.  What Read (archive.go:32-50) gives is the file. *)
From Coq Require Import List Ascii String Arith NArith Lia Bool.
From Verif Require Import Types Container DockerLogs.
Import ListNotations.
Open Scope list_scope.

(* ------------------------------------------------------------------ *)
(** * Specification *)
(** a name the old format can hold: at most 100 characters of ASCII, no NUL; not that of a directory *)
Definition ascii_char (c : ascii) : Prop := (1 <= N_of_ascii c <= 127)%N.
Definition plain_name (n : string) : Prop :=
  (List.length (list_ascii_of_string n) <= 100)%nat /\ Forall ascii_char (list_ascii_of_string n) /\
  forall d, n <> (d ++ "/")%string.
(** an entry with such a name, permission bits and less than 8 GiB of contents *)
Definition plain_entry (e : entry) : Prop :=
  plain_name (en_name e) /\ (0 <= en_mode e < 4096)%Z /\ (N.of_nat (List.length (list_ascii_of_string (en_contents e))) < 8589934592)%N.

(* ------------------------------------------------------------------ *)
(** * Model: writing *)
Notation chars := (list ascii).
Definition nulc : ascii := "000"%char.
Definition zeros (n : nat) : chars := repeat nulc n.
(** strconv.go formatOctal for a number that fits (fitsInOctal): digits, zeros in front, NUL *)
Definition digit (d : N) : ascii := ascii_of_N (48 + d).
Fixpoint digits (k : nat) (n : N) : chars := match k with O => [] | S k => digits k (n / 8) ++ [digit (n mod 8)] end.
Definition fits (len : nat) (n : N) : bool := (n <? 8 ^ N.of_nat (len - 1))%N.
Definition format_octal (len : nat) (n : N) : chars := digits (len - 1) n ++ [nulc].
(** formatString *)
Definition format_string (len : nat) (s : chars) : chars := s ++ zeros (len - List.length s).
(** format.go computeChecksum: the bytes summed up, those of the checksum itself counted as spaces *)
Fixpoint sum (l : chars) : N := match l with [] => 0 | c :: l => N_of_ascii c + sum l end%N.
(** what a header says besides name, size and kind *)
Record meta := mkMeta { me_mode : N; me_uid : N; me_gid : N; me_mtime : N; me_uname : chars; me_gname : chars }.
(** writer.go templateV7Plus, writeUSTARHeader; format.go: the fields of a block, setFormat *)
Definition pre (name : chars) (m : meta) (size : N) : chars :=
  format_string 100 name ++ format_octal 8 (me_mode m) ++ format_octal 8 (me_uid m) ++ format_octal 8 (me_gid m) ++
  format_octal 12 size ++ format_octal 12 (me_mtime m).
Definition ustar : chars := ["u"; "s"; "t"; "a"; "r"; "000"; "0"; "0"]%char.
Definition post (m : meta) (flag : ascii) : chars :=
  [flag] ++ zeros 100 ++ ustar ++ format_string 32 (me_uname m) ++ format_string 32 (me_gname m) ++
  format_octal 8 0 ++ format_octal 8 0 ++ zeros 155 ++ zeros 12.
Definition header (name : chars) (m : meta) (size : N) (flag : ascii) : chars :=
  let a := pre name m size in let z := post m flag in
  a ++ format_octal 7 (sum a + 256 + sum z)%N ++ [" "%char] ++ z.
(** format.go blockPadding *)
Definition padding (n : nat) : nat := (512 - n mod 512) mod 512.
(** the Writer: what is in the file, and the padding still to be written *)
Record tarw := mkTarw { tw_out : chars; tw_pad : nat }.
Definition tarw0 := mkTarw [] 0.
(** common.go allowedFormats: does USTAR do? *)
Definition is_ascii (l : chars) : bool := forallb (fun c => (1 <=? N_of_ascii c)%N && (N_of_ascii c <=? 127)%N) l.
Definition ends_in_slash (l : chars) : bool := match rev l with "/"%char :: _ => true | _ => false end.
Definition header_ok (name : chars) (m : meta) (size : N) : bool :=
  Nat.leb (List.length name) 100 && is_ascii name && fits 8 (me_mode m) && fits 8 (me_uid m) && fits 8 (me_gid m) && fits 12 size &&
  fits 12 (me_mtime m) && Nat.leb (List.length (me_uname m)) 32 && is_ascii (me_uname m) && Nat.leb (List.length (me_gname m)) 32 && is_ascii (me_gname m).
Inductive wres := WOk (w : tarw) | WErr (e : string) | WOther.
(** Writer.WriteHeader (after Flush), then Write of the contents: a name ending in "/" makes a directory, which has none *)
Definition write_entry (w : tarw) (name : chars) (m : meta) (contents : chars) : wres :=
  let size := N.of_nat (List.length contents) in
  if negb (header_ok name m size) then WOther
  else let dir := ends_in_slash name in
       let out := tw_out w ++ zeros (tw_pad w) ++ header name m size (if dir then "5"%char else "0"%char) in
       if dir then match contents with [] => WOk (mkTarw out 0) | _ => WErr "archive/tar: write too long" end
       else WOk (mkTarw (out ++ contents) (padding (List.length contents))).
(** archive.go:58-71: the header has a name, a mode and a size *)
Definition write_file (w : tarw) (e : entry) : wres :=
  write_entry w (list_ascii_of_string (en_name e)) (mkMeta (Z.to_N (en_mode e)) 0 0 0 [] []) (list_ascii_of_string (en_contents e)).
(** tcontainer.go:532-543, 568-572 *)
Fixpoint write_files (w : tarw) (es : list entry) : wres :=
  match es with [] => WOk w | e :: es => match write_file w e with WOk w' => write_files w' es | r => r end end.
(** archive.go:32-50: the file as it is, the last padding and the end mark missing *)
Definition sent (es : list entry) : option chars := match write_files tarw0 es with WOk w => Some (tw_out w) | _ => None end.
(** Writer.Close, as the engine does at the end of the archive it sends *)
Definition close (w : tarw) : chars := tw_out w ++ zeros (tw_pad w) ++ zeros 1024.

(* ------------------------------------------------------------------ *)
(** * Model: reading *)
(** strconv.go parseString, parseOctal *)
Fixpoint parse_string (l : chars) : chars := match l with [] => [] | c :: l => if Ascii.eqb c nulc then [] else c :: parse_string l end.
Definition blank_char (c : ascii) : bool := Ascii.eqb c " " || Ascii.eqb c nulc.
Fixpoint drop_blanks (l : chars) : chars := match l with [] => [] | c :: l' => if blank_char c then drop_blanks l' else l end.
Definition trim (l : chars) : chars := rev (drop_blanks (rev (drop_blanks l))).
Fixpoint parse_digits (acc : N) (l : chars) : option N :=
  match l with
  | [] => Some acc
  | c :: l => let d := N_of_ascii c in if ((48 <=? d) && (d <=? 55))%N then parse_digits (8 * acc + (d - 48))%N l else None
  end.
Definition parse_octal (l : chars) : option N :=
  match trim l with [] => Some 0%N | t => match parse_string t with [] => None | s => parse_digits 0 s end end.
Definition slice (off len : nat) (b : chars) : chars := firstn len (skipn off b).
Record hdr := mkHdr { hd_name : chars; hd_mode : N; hd_size : N; hd_flag : ascii }.
(** reader.go readHeader of a block that is not zero; format.go getFormat *)
Definition read_header (b : chars) : option hdr :=
  match parse_octal (slice 148 8 b) with
  | None => None
  | Some chk =>
      if negb (N.eqb chk (sum (slice 0 148 b) + 256 + sum (slice 156 356 b))) then None
      else if negb (if list_eq_dec ascii_dec (slice 257 8 b) ustar then true else false) then None
      else match parse_octal (slice 100 8 b), parse_octal (slice 108 8 b), parse_octal (slice 116 8 b), parse_octal (slice 124 12 b),
                 parse_octal (slice 136 12 b), parse_octal (slice 329 8 b), parse_octal (slice 337 8 b) with
           | Some mode, Some _, Some _, Some size, Some _, Some _, Some _ =>
               let p := parse_string (slice 345 155 b) in
               let n := parse_string (slice 0 100 b) in
               Some (mkHdr (match p with [] => n | _ => p ++ "/"%char :: n end) mode size (hd "000"%char (slice 156 1 b)))
           | _, _, _, _, _, _, _ => None
           end
  end.
Definition is_zero (b : chars) : bool := forallb (fun c => Ascii.eqb c nulc) b.
(** format.go isHeaderOnlyType *)
Definition header_only (f : ascii) : bool := existsb (Ascii.eqb f) ["1"; "2"; "3"; "4"; "5"; "6"]%char.
Record item := mkItem { it_name : chars; it_mode : N; it_dir : bool; it_contents : chars }.
(** reader.go next, again and again, each time followed by reading the contents to the end; [None]: an error.
    An end of input within the padding, or where a header could begin, is the end of the archive (tryReadFull). *)
Fixpoint read_tar (fuel : nat) (pad : nat) (inp : chars) : option (list item) :=
  match fuel with
  | O => None
  | S fuel =>
      if Nat.ltb (List.length inp) pad then Some []
      else let inp := skipn pad inp in
           if Nat.eqb (List.length inp) 0 then Some []
           else if Nat.ltb (List.length inp) 512 then None
           else let b := firstn 512 inp in let rest := skipn 512 inp in
                if is_zero b
                then if Nat.eqb (List.length rest) 0 then Some [] else if Nat.ltb (List.length rest) 512 then None
                     else if is_zero (firstn 512 rest) then Some [] else None
                else match read_header b with
                     | None => None
                     | Some h =>
                         if negb (header_only (hd_flag h) || Ascii.eqb (hd_flag h) "0") then None
                         else let size := if header_only (hd_flag h) then O else N.to_nat (hd_size h) in
                              if Nat.ltb (List.length rest) size then None
                              else match read_tar fuel (padding size) (skipn size rest) with
                                   | Some l => Some (mkItem (hd_name h) (hd_mode h) (Ascii.eqb (hd_flag h) "5") (firstn size rest) :: l)
                                   | None => None
                                   end
                     end
  end.
Definition unpack (inp : chars) : option (list item) := read_tar (S (List.length inp)) 0 inp.
(** tcontainer.go:456-486 and 488-511: the contents of all entries, one after the other *)
Definition read_back (inp : chars) : option chars := option_map (flat_map it_contents) (unpack inp).
(** the file an item stands for, when it is extracted *)
Definition entry_of (i : item) : entry := mkEntry (string_of_list_ascii (it_name i)) (Z.of_N (it_mode i)) (string_of_list_ascii (it_contents i)).

(* ------------------------------------------------------------------ *)
(** * Proofs *)
Lemma zeros_length n : List.length (zeros n) = n.
Proof. apply repeat_length. Qed.
Lemma digits_length k : forall n, List.length (digits k n) = k.
Proof. induction k as [|k IH]; intros n; cbn [digits]; [reflexivity|]. rewrite app_length, IH. cbn. lia. Qed.
Lemma octal_length k n : List.length (format_octal (S k) n) = S k.
Proof. unfold format_octal. rewrite app_length, digits_length. cbn. lia. Qed.
Lemma string_length k s : (List.length s <= k)%nat -> List.length (format_string k s) = k.
Proof. intros H. unfold format_string. rewrite app_length, zeros_length. lia. Qed.
Lemma digit_code d : (d < 8)%N -> N_of_ascii (digit d) = (48 + d)%N.
Proof. intros H. unfold digit. apply N_ascii_embedding. lia. Qed.
Lemma digits_are_digits k : forall n c, In c (digits k n) -> exists d, (d < 8)%N /\ c = digit d.
Proof.
  induction k as [|k IH]; intros n c; cbn [digits]; [contradiction|]. intros H. apply in_app_or in H. destruct H as [H|[<-|[]]]; [eauto|].
  exists (n mod 8)%N. split; [apply N.mod_lt; discriminate|reflexivity].
Qed.
Lemma digit_not_blank d : (d < 8)%N -> blank_char (digit d) = false.
Proof.
  intros H. unfold blank_char. destruct (Ascii.eqb_spec (digit d) " ") as [E|_].
  - apply (f_equal N_of_ascii) in E. rewrite digit_code in E by exact H. change (N_of_ascii " ") with 32%N in E. lia.
  - destruct (Ascii.eqb_spec (digit d) nulc) as [E|_]; [|reflexivity]. apply (f_equal N_of_ascii) in E. rewrite digit_code in E by exact H. change (N_of_ascii nulc) with 0%N in E. lia.
Qed.
Lemma parse_digits_app a : forall acc c, (forall x, In x a -> exists d, (d < 8)%N /\ x = digit d) -> (c < 8)%N ->
  parse_digits acc (a ++ [digit c]) = option_map (fun v => 8 * v + c)%N (parse_digits acc a).
Proof.
  induction a as [|x a IH]; intros acc c Ha Hc.
  - cbn [app parse_digits]. rewrite digit_code by exact Hc. destruct (N.leb_spec 48 (48 + c)); [|lia]. destruct (N.leb_spec (48 + c) 55); [|lia]. cbn [andb option_map].
    f_equal. lia.
  - destruct (Ha x (or_introl eq_refl)) as (d & Hd & ->). cbn [app parse_digits]. rewrite digit_code by exact Hd.
    destruct (N.leb_spec 48 (48 + d)); [|lia]. destruct (N.leb_spec (48 + d) 55); [|lia]. cbn [andb]. apply IH; [intros y Hy; apply Ha; now right|exact Hc].
Qed.
Lemma parse_digits_digits k : forall n, (n < 8 ^ N.of_nat k)%N -> parse_digits 0 (digits k n) = Some n.
Proof.
  induction k as [|k IH]; intros n H.
  - change (8 ^ N.of_nat 0)%N with 1%N in H. cbn. f_equal. lia.
  - cbn [digits]. rewrite parse_digits_app; [|intros x Hx; exact (digits_are_digits _ _ _ Hx)|apply N.mod_lt; discriminate].
    rewrite IH.
    + cbn [option_map]. f_equal. symmetry. apply N.div_mod. discriminate.
    + rewrite Nat2N.inj_succ, N.pow_succ_r' in H. apply N.div_lt_upper_bound; [discriminate|exact H].
Qed.
Lemma drop_blanks_digit d l : (d < 8)%N -> drop_blanks (digit d :: l) = digit d :: l.
Proof. intros H. cbn [drop_blanks]. now rewrite digit_not_blank. Qed.
Lemma digits_head k n : exists d l, (d < 8)%N /\ digits (S k) n = digit d :: l.
Proof.
  assert (L := digits_length (S k) n). destruct (digits (S k) n) as [|c l] eqn:E; [discriminate|].
  destruct (digits_are_digits (S k) n c) as (d & Hd & ->); [rewrite E; now left|]. eauto.
Qed.
Lemma digits_last k n : exists d l, (d < 8)%N /\ rev (digits (S k) n) = digit d :: l.
Proof. cbn [digits]. rewrite rev_app_distr. cbn. exists (n mod 8)%N, (rev (digits k (n / 8))). split; [apply N.mod_lt; discriminate|reflexivity]. Qed.
Lemma parse_string_digits l : (forall x, In x l -> exists d, (d < 8)%N /\ x = digit d) -> parse_string l = l.
Proof.
  induction l as [|x l IH]; intros H; [reflexivity|]. destruct (H x (or_introl eq_refl)) as (d & Hd & E). cbn [parse_string].
  assert (B := digit_not_blank d Hd). rewrite <- E in B. unfold blank_char in B. apply orb_false_iff in B. destruct B as (_ & B). rewrite B. f_equal. apply IH. intros y Hy. apply H. now right.
Qed.
Lemma trim_digits k n tail : (forall c, In c tail -> blank_char c = true) -> trim (digits (S k) n ++ tail) = digits (S k) n.
Proof.
  intros Ht. unfold trim. destruct (digits_head k n) as (d & l & Hd & E). rewrite E. cbn [app]. rewrite drop_blanks_digit by exact Hd. rewrite app_comm_cons, <- E.
  rewrite rev_app_distr. assert (B : forall r l, (forall c, In c r -> blank_char c = true) -> drop_blanks (r ++ l) = drop_blanks l).
  { induction r as [|c r IH]; intros l' H; [reflexivity|]. cbn [app drop_blanks]. rewrite (H c (or_introl eq_refl)). apply IH. intros y Hy. apply H. now right. }
  rewrite B by (intros c Hc; apply Ht; now apply in_rev). destruct (digits_last k n) as (d' & l' & Hd' & E'). rewrite E', drop_blanks_digit, <- E' by exact Hd'. apply rev_involutive.
Qed.
Lemma parse_octal_digits k n tail : (forall c, In c tail -> blank_char c = true) -> (n < 8 ^ N.of_nat (S k))%N ->
  parse_octal (digits (S k) n ++ tail) = Some n.
Proof.
  intros Ht Hn. unfold parse_octal. rewrite trim_digits by exact Ht. destruct (digits_head k n) as (d & l & Hd & E).
  assert (P := parse_string_digits (digits (S k) n) (fun x Hx => digits_are_digits _ _ _ Hx)). rewrite <- (parse_digits_digits (S k) n Hn).
  rewrite E in P |- *. rewrite P. reflexivity.
Qed.
Lemma blank_nul c : In c [nulc] -> blank_char c = true.
Proof. intros [<-|[]]. reflexivity. Qed.
Lemma parse_format len n : fits (S (S len)) n = true -> parse_octal (format_octal (S (S len)) n) = Some n.
Proof.
  unfold fits, format_octal. intros H. apply N.ltb_lt in H. replace (S (S len) - 1) with (S len) in * by lia. apply parse_octal_digits; [exact blank_nul|exact H].
Qed.
Lemma parse_string_format len s : is_ascii s = true -> (List.length s <= len)%nat -> parse_string (format_string len s) = s.
Proof.
  unfold format_string. intros H _. induction s as [|c s IH].
  - cbn [app]. destruct (len - List.length (@nil ascii)); reflexivity.
  - cbn [is_ascii forallb] in H. apply andb_true_iff in H. destruct H as (H1 & H2). cbn [app parse_string List.length].
    destruct (Ascii.eqb_spec c nulc) as [->|_]; [discriminate|]. f_equal.
    revert IH. generalize (len - List.length s) (len - S (List.length s)). intros a b IH. specialize (IH H2).
    clear -H2. induction s as [|c s IH]; [destruct b; reflexivity|]. cbn [is_ascii forallb] in H2. apply andb_true_iff in H2. destruct H2 as (H1 & H2).
    cbn [app parse_string]. destruct (Ascii.eqb_spec c nulc) as [->|_]; [discriminate|]. f_equal. now apply IH.
Qed.
Lemma slice_app off len a b c : List.length a = off -> List.length b = len -> slice off len (a ++ b ++ c) = b.
Proof.
  intros <- <-. unfold slice. rewrite skipn_app, skipn_all, Nat.sub_diag. cbn [app skipn]. rewrite firstn_app, firstn_all, Nat.sub_diag. cbn [firstn]. apply app_nil_r.
Qed.
Lemma sum_app a b : sum (a ++ b) = (sum a + sum b)%N.
Proof. induction a as [|c a IH]; cbn [app sum]; [reflexivity|]. rewrite IH. lia. Qed.
Lemma sum_bound l : (sum l <= 255 * N.of_nat (List.length l))%N.
Proof. induction l as [|c l IH]; cbn [sum List.length]; [lia|]. assert (B := N_ascii_bounded c). lia. Qed.

Record hok (name : chars) (m : meta) (size : N) : Prop := mkHok {
  hk_name : (List.length name <= 100)%nat /\ is_ascii name = true;
  hk_mode : fits 8 (me_mode m) = true; hk_uid : fits 8 (me_uid m) = true; hk_gid : fits 8 (me_gid m) = true;
  hk_size : fits 12 size = true; hk_mtime : fits 12 (me_mtime m) = true;
  hk_uname : (List.length (me_uname m) <= 32)%nat; hk_gname : (List.length (me_gname m) <= 32)%nat }.
Lemma header_ok_hok name m size : header_ok name m size = true -> hok name m size.
Proof. unfold header_ok. intros H. rewrite !andb_true_iff, !Nat.leb_le in H. destruct H as ((((((((((H1 & H2) & H3) & H4) & H5) & H6) & H7) & H8) & _) & H9) & _). split; auto. Qed.
Lemma pre_length name m size : hok name m size -> List.length (pre name m size) = 148.
Proof. intros [[H1 _] _ _ _ _ _ _ _]. unfold pre. rewrite !app_length, !octal_length, string_length by exact H1. reflexivity. Qed.
Lemma post_length name m size f : hok name m size -> List.length (post m f) = 356.
Proof. intros [_ _ _ _ _ _ H8 H9]. unfold post. rewrite !app_length, !octal_length, !zeros_length, !string_length by assumption. reflexivity. Qed.
Lemma header_length name m size f : hok name m size -> List.length (header name m size f) = 512.
Proof. intros H. unfold header. rewrite !app_length, octal_length, (pre_length _ _ _ H), (post_length _ _ _ _ H). reflexivity. Qed.
Lemma slice_left off len a b : (off + len <= List.length a)%nat -> slice off len (a ++ b) = slice off len a.
Proof.
  intros H. unfold slice. rewrite skipn_app. replace (off - List.length a) with 0 by lia. cbn [skipn]. rewrite firstn_app, skipn_length.
  replace (len - (List.length a - off)) with 0 by lia. cbn [firstn]. apply app_nil_r.
Qed.
Lemma slice_right off len a b n : List.length a = n -> (n <= off)%nat -> slice off len (a ++ b) = slice (off - n) len b.
Proof. intros <- H. unfold slice. rewrite skipn_app, skipn_all2 by exact H. reflexivity. Qed.
Lemma slice_here len a b : List.length a = len -> slice 0 len (a ++ b) = a.
Proof. intros H. exact (slice_app 0 len [] a b eq_refl H). Qed.
Lemma slice_whole len a : List.length a = len -> slice 0 len a = a.
Proof. intros <-. unfold slice. apply firstn_all. Qed.
(** go past a field of known length, or take it *)
Ltac field_step :=
  first [ rewrite slice_here by (first [assumption | apply octal_length | apply zeros_length | reflexivity]); reflexivity
        | rewrite slice_whole by (first [assumption | apply octal_length | apply zeros_length | reflexivity]); reflexivity
        | erewrite slice_right; [|first [eassumption | apply octal_length | apply zeros_length | reflexivity]|repeat constructor]; cbn [Nat.sub] ].
Lemma pre_fields name m size : hok name m size -> let a := pre name m size in
  slice 0 100 a = format_string 100 name /\ slice 100 8 a = format_octal 8 (me_mode m) /\ slice 108 8 a = format_octal 8 (me_uid m) /\
  slice 116 8 a = format_octal 8 (me_gid m) /\ slice 124 12 a = format_octal 12 size /\ slice 136 12 a = format_octal 12 (me_mtime m).
Proof.
  intros [[H1 _] _ _ _ _ _ _ _]. assert (L100 := string_length 100 name H1). cbv zeta. unfold pre.
  split; [|split; [|split; [|split; [|split]]]]; repeat field_step.
Qed.
Lemma post_fields name m size f : hok name m size -> let z := post m f in
  slice 0 1 z = [f] /\ slice 101 8 z = ustar /\ slice 173 8 z = format_octal 8 0 /\ slice 181 8 z = format_octal 8 0 /\ slice 189 155 z = zeros 155.
Proof.
  intros [_ _ _ _ _ _ H8 H9]. assert (L32 := string_length 32 _ H8). assert (L32' := string_length 32 _ H9). cbv zeta. unfold post.
  split; [|split; [|split; [|split]]]; repeat field_step.
Qed.
Lemma header_fields name m size f : hok name m size -> let b := header name m size f in
  slice 0 148 b = pre name m size /\ slice 156 356 b = post m f /\
  slice 148 8 b = digits 6 (sum (pre name m size) + 256 + sum (post m f)) ++ [nulc; " "%char] /\
  slice 257 8 b = ustar /\ slice 100 8 b = format_octal 8 (me_mode m) /\ slice 108 8 b = format_octal 8 (me_uid m) /\
  slice 116 8 b = format_octal 8 (me_gid m) /\ slice 124 12 b = format_octal 12 size /\ slice 136 12 b = format_octal 12 (me_mtime m) /\
  slice 329 8 b = format_octal 8 0 /\ slice 337 8 b = format_octal 8 0 /\ slice 345 155 b = zeros 155 /\ slice 0 100 b = format_string 100 name /\
  slice 156 1 b = [f].
Proof.
  intros H. assert (Lp := pre_length _ _ _ H). assert (Lq := post_length _ _ _ f H).
  destruct (pre_fields _ _ _ H) as (P1 & P2 & P3 & P4 & P5 & P6). destruct (post_fields _ _ _ f H) as (Q1 & Q2 & Q3 & Q4 & Q5).
  assert (O7 := octal_length 6). cbv zeta. unfold header. cbv zeta.
  set (a := pre name m size) in *. set (z := post m f) in *. set (chk := format_octal 7 _).
  assert (Lc : List.length (chk ++ [" "%char]) = 8) by (rewrite app_length; unfold chk; rewrite O7; reflexivity).
  assert (E : a ++ chk ++ [" "%char] ++ z = (a ++ chk ++ [" "%char]) ++ z) by (rewrite <- !app_assoc; reflexivity).
  assert (L156 : List.length (a ++ chk ++ [" "%char]) = 156) by (rewrite app_length, Lp, Lc; reflexivity).
  assert (A : forall off len, (off + len <= 148)%nat -> slice off len (a ++ chk ++ [" "%char] ++ z) = slice off len a) by (intros; apply slice_left; lia).
  assert (Z : forall off len o, o = 156 + off -> slice o len (a ++ chk ++ [" "%char] ++ z) = slice off len z).
  { intros off len o ->. rewrite E. rewrite (slice_right _ _ _ _ 156 L156) by lia. f_equal. lia. }
  split; [rewrite A by lia; exact (slice_whole _ _ Lp)|]. split; [rewrite (Z 0 356 156 eq_refl); exact (slice_whole _ _ Lq)|].
  split. { rewrite (app_assoc chk). rewrite (slice_app 148 8 a (chk ++ [" "%char]) z Lp Lc). unfold chk, format_octal. rewrite <- app_assoc. reflexivity. }
  split; [rewrite (Z 101 8 257 eq_refl); exact Q2|]. split; [rewrite A by lia; exact P2|]. split; [rewrite A by lia; exact P3|]. split; [rewrite A by lia; exact P4|].
  split; [rewrite A by lia; exact P5|]. split; [rewrite A by lia; exact P6|]. split; [rewrite (Z 173 8 329 eq_refl); exact Q3|]. split; [rewrite (Z 181 8 337 eq_refl); exact Q4|].
  split; [rewrite (Z 189 155 345 eq_refl); exact Q5|]. split; [rewrite A by lia; exact P1|]. rewrite (Z 0 1 156 eq_refl); exact Q1.
Qed.
Lemma parse_string_zeros n : parse_string (zeros n) = [].
Proof. destruct n; reflexivity. Qed.
Lemma read_header_header name m size f : hok name m size -> read_header (header name m size f) = Some (mkHdr name (me_mode m) size f).
Proof.
  intros H. destruct (header_fields name m size f H) as (F1 & F2 & F3 & F4 & F5 & F6 & F7 & F8 & F9 & F10 & F11 & F12 & F13 & F14).
  assert (Lp := pre_length _ _ _ H). assert (Lq := post_length _ _ _ f H). assert (Bp := sum_bound (pre name m size)). assert (Bq := sum_bound (post m f)).
  destruct H as [[H1 H2] H3 H4 H5 H6 H7 _ _].
  unfold read_header. rewrite F3, parse_octal_digits.
  2: { intros c [<-|[<-|[]]]; reflexivity. }
  2: { change (8 ^ N.of_nat 6)%N with 262144%N. rewrite Lp in Bp. rewrite Lq in Bq. lia. }
  rewrite F1, F2, N.eqb_refl. cbn [negb]. rewrite F4. destruct (list_eq_dec ascii_dec ustar ustar) as [_|X]; [|contradiction]. cbn [negb].
  rewrite F5, F6, F7, F8, F9, F10, F11, F12, F13, F14. rewrite !parse_format by (first [assumption|reflexivity]).
  rewrite parse_string_zeros, parse_string_format by assumption. reflexivity.
Qed.
Lemma header_not_zero name m size f : hok name m size -> f <> nulc -> is_zero (header name m size f) = false.
Proof.
  intros H Hf. destruct (header_fields name m size f H) as (_ & _ & _ & _ & _ & _ & _ & _ & _ & _ & _ & _ & _ & F).
  destruct (is_zero (header name m size f)) eqn:E; [|reflexivity]. exfalso. apply Hf. unfold is_zero in E. rewrite forallb_forall in E.
  apply Ascii.eqb_eq, E. rewrite <- (firstn_skipn 156 (header name m size f)). apply in_or_app. right.
  rewrite <- (firstn_skipn 1 (skipn 156 (header name m size f))). apply in_or_app. left. change (In f (slice 156 1 (header name m size f))). rewrite F. now left.
Qed.

(** ** One entry *)
Definition kind (name : chars) : ascii := if ends_in_slash name then "5"%char else "0"%char.
Definition item_of (name : chars) (m : meta) (c : chars) : item := mkItem name (me_mode m) (ends_in_slash name) c.
Lemma write_entry_inv w name m c w' : write_entry w name m c = WOk w' ->
  hok name m (N.of_nat (List.length c)) /\
  tw_out w' = tw_out w ++ zeros (tw_pad w) ++ header name m (N.of_nat (List.length c)) (kind name) ++ c /\
  tw_pad w' = padding (List.length c) /\ (ends_in_slash name = true -> c = []).
Proof.
  unfold write_entry, kind. destruct (header_ok name m (N.of_nat (List.length c))) eqn:E; cbn [negb]; [|discriminate]. apply header_ok_hok in E.
  destruct (ends_in_slash name).
  - destruct c; [|discriminate]. intros X. injection X as <-. cbn [tw_out tw_pad]. rewrite app_nil_r. auto.
  - intros X. injection X as <-. cbn [tw_out tw_pad]. rewrite <- !app_assoc. split; [exact E|]. split; [reflexivity|]. split; [reflexivity|discriminate].
Qed.
Lemma skipn_exact {A} n (a b : list A) : List.length a = n -> skipn n (a ++ b) = b.
Proof. intros <-. rewrite skipn_app, skipn_all, Nat.sub_diag. reflexivity. Qed.
Lemma firstn_exact {A} n (a b : list A) : List.length a = n -> firstn n (a ++ b) = a.
Proof. intros <-. rewrite firstn_app, firstn_all, Nat.sub_diag. cbn. apply app_nil_r. Qed.
Lemma read_one fuel pad name m c rest : hok name m (N.of_nat (List.length c)) -> (ends_in_slash name = true -> c = []) ->
  read_tar (S fuel) pad (zeros pad ++ header name m (N.of_nat (List.length c)) (kind name) ++ c ++ rest) =
  option_map (cons (item_of name m c)) (read_tar fuel (padding (List.length c)) rest).
Proof.
  intros H Hd. assert (Lh := header_length name m (N.of_nat (List.length c)) (kind name) H). cbn [read_tar].
  set (h := header name m (N.of_nat (List.length c)) (kind name)) in *.
  replace (Nat.ltb (List.length (zeros pad ++ h ++ c ++ rest)) pad) with false
    by (symmetry; apply Nat.ltb_ge; rewrite app_length, zeros_length; lia).
  cbv zeta. rewrite (skipn_exact pad) by apply zeros_length.
  replace (Nat.eqb (List.length (h ++ c ++ rest)) 0) with false by (symmetry; apply Nat.eqb_neq; rewrite app_length, Lh; lia).
  replace (Nat.ltb (List.length (h ++ c ++ rest)) 512) with false by (symmetry; apply Nat.ltb_ge; rewrite app_length, Lh; lia).
  rewrite (firstn_exact 512 h) by exact Lh. rewrite (skipn_exact 512 h) by exact Lh.
  unfold h at 1. rewrite header_not_zero; [|exact H|unfold kind; destruct (ends_in_slash name); discriminate].
  unfold h. rewrite read_header_header by exact H. cbn [hd_flag hd_size hd_name hd_mode]. unfold kind, item_of. destruct (ends_in_slash name) eqn:Es.
  - rewrite (Hd eq_refl). change (header_only "5") with true. change (Ascii.eqb "5" "5") with true. cbn [orb negb app List.length Nat.ltb skipn firstn].
    change (Nat.ltb (List.length rest) 0) with false. cbn [padding]. destruct (read_tar fuel (padding 0) rest); reflexivity.
  - change (header_only "0") with false. change (Ascii.eqb "0" "0") with true. change (Ascii.eqb "0" "5") with false. cbn [orb negb]. rewrite Nat2N.id.
    replace (Nat.ltb (List.length (c ++ rest)) (List.length c)) with false by (symmetry; apply Nat.ltb_ge; rewrite app_length; lia).
    rewrite (firstn_exact _ c), (skipn_exact _ c) by reflexivity. destruct (read_tar fuel (padding (List.length c)) rest); reflexivity.
Qed.

(** ** An archive: entries one after the other, then nothing, or what Close writes *)
Definition tentry := (chars * meta * chars)%type.
Fixpoint write_entries (w : tarw) (l : list tentry) : wres :=
  match l with [] => WOk w | (n, m, c) :: l => match write_entry w n m c with WOk w' => write_entries w' l | r => r end end.
Lemma write_grows l : forall w w', write_entries w l = WOk w' -> exists x, tw_out w' = tw_out w ++ x /\
  forall fuel tail, (List.length l < fuel)%nat ->
    read_tar fuel (tw_pad w) (x ++ tail) =
    option_map (app (map (fun t => item_of (fst (fst t)) (snd (fst t)) (snd t)) l)) (read_tar (fuel - List.length l) (tw_pad w') tail).
Proof.
  induction l as [|((n & m) & c) l IH]; intros w w'; cbn [write_entries].
  - intros E. injection E as <-. exists []. split; [now rewrite app_nil_r|]. intros fuel tail _. cbn [app List.length map]. rewrite Nat.sub_0_r.
    destruct (read_tar fuel (tw_pad w) tail); reflexivity.
  - destruct (write_entry w n m c) as [w1|e|] eqn:E1; try discriminate. intros E. destruct (write_entry_inv _ _ _ _ _ E1) as (H & O1 & P1 & D).
    destruct (IH _ _ E) as (x & O & R). exists (zeros (tw_pad w) ++ header n m (N.of_nat (List.length c)) (kind n) ++ c ++ x).
    split; [rewrite O, O1, <- !app_assoc; reflexivity|]. intros fuel tail Hf. cbn [List.length] in Hf. destruct fuel as [|fuel]; [lia|].
    rewrite <- !app_assoc. rewrite read_one by assumption. rewrite <- P1, R by lia. cbn [List.length Nat.sub map app fst snd].
    destruct (read_tar (fuel - List.length l) (tw_pad w') tail); reflexivity.
Qed.
Lemma read_end fuel pad : (pad <= 511)%nat -> read_tar (S fuel) pad [] = Some [].
Proof. intros _. cbn [read_tar List.length]. destruct pad; reflexivity. Qed.
Lemma is_zero_zeros n : is_zero (zeros n) = true.
Proof. apply forallb_forall. intros c Hc. apply repeat_spec in Hc. subst. reflexivity. Qed.
Lemma read_close fuel pad : read_tar (S fuel) pad (zeros pad ++ zeros 1024) = Some [].
Proof.
  cbn [read_tar]. replace (Nat.ltb (List.length (zeros pad ++ zeros 1024)) pad) with false
    by (symmetry; apply Nat.ltb_ge; rewrite app_length, !zeros_length; lia).
  cbv zeta. rewrite (skipn_exact pad) by apply zeros_length.
  replace (zeros 1024) with (zeros 512 ++ zeros 512) by reflexivity.
  replace (Nat.eqb (List.length (zeros 512 ++ zeros 512)) 0) with false by reflexivity.
  replace (Nat.ltb (List.length (zeros 512 ++ zeros 512)) 512) with false by reflexivity.
  rewrite (firstn_exact 512), (skipn_exact 512) by apply zeros_length. rewrite is_zero_zeros.
  replace (Nat.eqb (List.length (zeros 512)) 0) with false by reflexivity.
  replace (Nat.ltb (List.length (zeros 512)) 512) with false by reflexivity.
  replace (firstn 512 (zeros 512)) with (zeros 512) by reflexivity. rewrite is_zero_zeros. reflexivity.
Qed.
Lemma entries_length l : forall w w', write_entries w l = WOk w' -> (List.length l <= List.length (tw_out w'))%nat.
Proof.
  enough (G : forall w w', write_entries w l = WOk w' -> (List.length (tw_out w) + List.length l <= List.length (tw_out w'))%nat) by (intros; specialize (G _ _ H); lia).
  induction l as [|((n & m) & c) l IH]; intros w w'; cbn [write_entries].
  - intros E. injection E as <-. cbn. lia.
  - destruct (write_entry w n m c) as [w1|e|] eqn:E1; try discriminate. intros E. destruct (write_entry_inv _ _ _ _ _ E1) as (H & O1 & _). specialize (IH _ _ E).
    rewrite O1, !app_length, (header_length _ _ _ _ H) in IH. cbn [List.length]. lia.
Qed.
Lemma padding_small n : (padding n <= 511)%nat.
Proof. unfold padding. assert (H := Nat.mod_upper_bound (512 - n mod 512) 512 ltac:(discriminate)). lia. Qed.
Definition as_tentry (e : entry) : tentry := (list_ascii_of_string (en_name e), mkMeta (Z.to_N (en_mode e)) 0 0 0 [] [], list_ascii_of_string (en_contents e)).
Lemma write_files_entries es : forall w, write_files w es = write_entries w (map as_tentry es).
Proof. induction es as [|e es IH]; intros w; cbn [write_files write_entries map as_tentry]; [reflexivity|]. unfold write_file. destruct (write_entry w _ _ _); auto. Qed.
Definition closed (l : list tentry) : option chars := match write_entries tarw0 l with WOk w => Some (close w) | _ => None end.
Lemma not_slash n : (forall d, n <> (d ++ "/")%string) -> ends_in_slash (list_ascii_of_string n) = false.
Proof.
  intros H. unfold ends_in_slash. destruct (rev (list_ascii_of_string n)) as [|c r] eqn:E; [reflexivity|].
  destruct (Ascii.eqb_spec c "/") as [->|N]; [|destruct c as [[] [] [] [] [] [] [] []]; try reflexivity; exfalso; apply N; reflexivity].
  exfalso. apply (H (string_of_list_ascii (rev r))). rewrite <- (string_of_list_ascii_of_string n).
  apply (f_equal (@rev ascii)) in E. rewrite rev_involutive in E. cbn [rev] in E. rewrite E.
  generalize (rev r) as l. induction l as [|x l IH]; [reflexivity|]. cbn. now rewrite IH.
Qed.
Lemma plain_header e : plain_entry e -> header_ok (list_ascii_of_string (en_name e)) (mkMeta (Z.to_N (en_mode e)) 0 0 0 [] [])
    (N.of_nat (List.length (list_ascii_of_string (en_contents e)))) = true.
Proof.
  intros ((H1 & H2 & _) & H3 & H4). unfold header_ok. cbn [me_mode me_uid me_gid me_mtime me_uname me_gname]. rewrite !andb_true_iff.
  assert (M : fits 8 (Z.to_N (en_mode e)) = true).
  { unfold fits. apply N.ltb_lt. change (8 ^ N.of_nat (8 - 1))%N with 2097152%N. apply N2Z.inj_lt. rewrite Z2N.id by lia. cbn. lia. }
  assert (S : fits 12 (N.of_nat (List.length (list_ascii_of_string (en_contents e)))) = true).
  { unfold fits. apply N.ltb_lt. change (8 ^ N.of_nat (12 - 1))%N with 8589934592%N. exact H4. }
  assert (A : is_ascii (list_ascii_of_string (en_name e)) = true).
  { unfold is_ascii. apply forallb_forall. intros c Hc. rewrite Forall_forall in H2. destruct (H2 c Hc). apply andb_true_iff. rewrite !N.leb_le. auto. }
  assert (L : Nat.leb (List.length (list_ascii_of_string (en_name e))) 100 = true) by now apply Nat.leb_le.
  rewrite L, A, M, S. auto 20.
Qed.
Lemma plain_written es : Forall plain_entry es -> forall w, exists w', write_files w es = WOk w'.
Proof.
  induction 1 as [|e es He _ IH]; intros w; cbn [write_files]; [eauto|]. unfold write_file, write_entry. rewrite (plain_header e He). cbn [negb].
  destruct He as ((_ & _ & Hs) & _). rewrite (not_slash _ Hs). apply IH.
Qed.

(* ------------------------------------------------------------------ *)
(** * Theorems *)
(** ** What is unpacked is what was written, with or without the end mark
    Whatever entries an archive is written from, and although it is never closed, reading it to the end gives exactly these
    entries, in order, and no error. *)
Theorem C90_unpack : forall l w, write_entries tarw0 l = WOk w ->
  unpack (tw_out w) = Some (map (fun t => item_of (fst (fst t)) (snd (fst t)) (snd t)) l) /\
  unpack (close w) = Some (map (fun t => item_of (fst (fst t)) (snd (fst t)) (snd t)) l).
Proof.
  intros l w H. assert (Ln := entries_length l _ _ H). destruct (write_grows l _ _ H) as (x & O & R). cbn [tw_out tarw0 app] in O. rewrite O in *.
  split; unfold unpack, close.
  - specialize (R (S (List.length x)) []). rewrite app_nil_r in R. cbn [tw_pad tarw0] in R. rewrite R by lia.
    replace (S (List.length x) - List.length l) with (S (List.length x - List.length l)) by lia.
    assert (P : (tw_pad w <= 511)%nat).
    { destruct l as [|((n & m) & c) l]; [injection H as <-; cbn; lia|]. clear -H. revert H. generalize tarw0. revert n m c.
      induction l as [|((n2 & m2) & c2) l IH]; intros n m c w0; cbn [write_entries].
      - destruct (write_entry w0 n m c) as [w1|e|] eqn:E1; try discriminate. intros E. injection E as <-. destruct (write_entry_inv _ _ _ _ _ E1) as (_ & _ & -> & _). apply padding_small.
      - destruct (write_entry w0 n m c) as [w1|e|] eqn:E1; try discriminate. exact (IH n2 m2 c2 w1). }
    rewrite read_end by exact P. cbn [option_map]. now rewrite app_nil_r.
  - specialize (R (S (List.length (x ++ zeros (tw_pad w) ++ zeros 1024))) (zeros (tw_pad w) ++ zeros 1024)). cbn [tw_pad tarw0] in R. rewrite O, R by (rewrite app_length; lia).
    replace (S (List.length (x ++ zeros (tw_pad w) ++ zeros 1024)) - List.length l) with (S (List.length (x ++ zeros (tw_pad w) ++ zeros 1024) - List.length l))
      by (rewrite app_length; lia).
    rewrite read_close. cbn [option_map]. now rewrite app_nil_r.
Qed.

(** ** The files of a task
    For files with plain names, the bytes handed to the engine are taken apart into exactly these files: names, modes and
    contents, whatever the contents. *)
Theorem C90_files_arrive : forall es, Forall plain_entry es ->
  exists b l, sent es = Some b /\ unpack b = Some l /\ map entry_of l = es /\ forall i, In i l -> it_dir i = false.
Proof.
  intros es H. unfold sent. destruct (plain_written es H tarw0) as (w & W). rewrite W. rewrite write_files_entries in W. destruct (C90_unpack _ _ W) as (U & _).
  exists (tw_out w). eexists. split; [reflexivity|]. split; [exact U|]. clear U W. split.
  - rewrite !map_map. induction H as [|e es He _ IH]; [reflexivity|]. cbn [map]. f_equal; [|exact IH]. unfold entry_of, item_of, as_tentry. cbn [fst snd it_name it_mode it_contents me_mode].
    rewrite !string_of_list_ascii_of_string. destruct He as (_ & Hm & _). rewrite Z2N.id by lia. destruct e; reflexivity.
  - intros i Hi. apply in_map_iff in Hi. destruct Hi as (x & <- & Hx). apply in_map_iff in Hx. destruct Hx as (e & <- & He). rewrite Forall_forall in H. destruct (H e He) as ((_ & _ & Hs) & _). exact (not_slash _ Hs).
Qed.
(** ... so the container gets what C74 says it gets: /tork, and the task's files *)
Theorem C90_task_files : forall t files, (N.of_nat (List.length (list_ascii_of_string (t_run t))) < 8589934592)%N ->
  (forall n c, In (n, c) files -> plain_name n /\ (N.of_nat (List.length (list_ascii_of_string c)) < 8589934592)%N) ->
  (exists b l, sent (tork_archive t) = Some b /\ unpack b = Some l /\ map entry_of l = tork_archive t) /\
  (exists b l, sent (work_archive files) = Some b /\ unpack b = Some l /\ map entry_of l = work_archive files).
Proof.
  intros t files Hr Hf. split.
  - destruct (C90_files_arrive (tork_archive t)) as (b & l & H1 & H2 & H3 & _); [|eauto].
    assert (P : forall n, In n ["stdout"; "progress"; "entrypoint"]%string -> plain_name n).
    { intros n [<-|[<-|[<-|[]]]]; (split; [cbn; lia|]; split; [repeat constructor; cbn; lia|]);
        intros d E; apply (f_equal (fun s => ends_in_slash (list_ascii_of_string s))) in E;
        (assert (Q : ends_in_slash (list_ascii_of_string (d ++ "/")) = true)
          by (unfold ends_in_slash; replace (list_ascii_of_string (d ++ "/")) with (list_ascii_of_string d ++ ["/"%char]);
              [rewrite rev_app_distr; reflexivity|clear; induction d as [|x d IH]; [reflexivity|]; cbn; now rewrite <- IH])); rewrite Q in E; discriminate. }
    unfold tork_archive. constructor; [|constructor].
    + split; [apply P; cbn; tauto|]. cbn [en_mode en_contents list_ascii_of_string List.length]. split; lia.
    + split; [apply P; cbn; tauto|]. cbn [en_mode en_contents list_ascii_of_string List.length]. split; lia.
    + destruct (String.eqb (t_run t) ""); [constructor|]. constructor; [|constructor]. split; [apply P; cbn; tauto|]. cbn [en_mode en_contents]. split; [lia|exact Hr].
  - destruct (C90_files_arrive (work_archive files)) as (b & l & H1 & H2 & H3 & _); [|eauto].
    unfold work_archive. apply Forall_forall. intros e He. apply in_map_iff in He. destruct He as ((n & c) & <- & Hin). destruct (Hf n c Hin) as (Hn & Hc).
    split; [exact Hn|]. cbn [en_mode en_contents fst snd]. split; [lia|exact Hc].
Qed.

(** ** The way back: the archive the engine makes of one file, whoever owns it and whenever it was changed *)
Theorem C90_output_arrives : forall name m c b, ends_in_slash name = false -> closed [(name, m, c)] = Some b -> read_back b = Some c.
Proof.
  intros name m c b Hs H. unfold closed in H. destruct (write_entries tarw0 [(name, m, c)]) as [w|e|] eqn:E; try discriminate. injection H as <-.
  unfold read_back. destruct (C90_unpack _ _ E) as (_ & ->). cbn [option_map map flat_map item_of it_contents fst snd]. now rewrite app_nil_r.
Qed.
(** ... and of a directory: the contents of all files, as C75 has it *)
Theorem C90_tree_arrives : forall l b f, closed l = Some b -> map (fun t => map N_of_ascii (snd t)) l = tar_of f ->
  exists c, read_back b = Some c /\ read_output (inr f) = inr (map N_of_ascii c).
Proof.
  intros l b f H E. unfold closed in H. destruct (write_entries tarw0 l) as [w|e|] eqn:W; try discriminate. injection H as <-.
  unfold read_back. destruct (C90_unpack _ _ W) as (_ & ->). cbn [option_map]. eexists. split; [reflexivity|]. cbn [read_output]. f_equal. rewrite <- E. clear.
  induction l as [|((n & m) & c) l IH]; [reflexivity|]. cbn [map flat_map concat fst snd item_of it_contents]. now rewrite IH, map_app.
Qed.

(* ------------------------------------------------------------------ *)
(** * What does not hold *)
(** A file whose name ends in "/" and that is not empty cannot be sent: the task fails. *)
Theorem C90_slash_name_refuted : forall d mode c, (0 <= mode < 4096)%Z -> c <> ""%string -> sent [mkEntry (d ++ "/") mode c] = None.
Proof.
  intros d mode c _ Hc. unfold sent. cbn [write_files]. unfold write_file, write_entry. cbn [en_name en_contents en_mode].
  destruct (negb _); [reflexivity|]. replace (ends_in_slash (list_ascii_of_string (d ++ "/"))) with true.
  - destruct c; [contradiction|]. reflexivity.
  - unfold ends_in_slash. replace (list_ascii_of_string (d ++ "/")) with (list_ascii_of_string d ++ ["/"%char]); [rewrite rev_app_distr; reflexivity|].
    clear. induction d as [|x d IH]; [reflexivity|]. cbn. now rewrite IH.
Qed.
Print Assumptions C90_unpack.
Print Assumptions C90_files_arrive.
Print Assumptions C90_task_files.
Print Assumptions C90_output_arrives.
Print Assumptions C90_tree_arrives.
Print Assumptions C90_slash_name_refuted.

(** Non-vacuity: two files, the first one shorter than a block; and an output with an owner *)
Definition exf : list entry := [mkEntry "a.txt" 292 "hello"; mkEntry "b/c" 292 ""].
Example C90_nonvacuous : Forall plain_entry exf /\
  (exists b, sent exf = Some b /\ List.length b = 1536 /\ option_map (map entry_of) (unpack b) = Some exf) /\
  (exists b, closed [(["s"]%char, mkMeta 146 1000 1000 1700000000 ["u"]%char [], ["4"; "2"]%char)] = Some b /\ List.length b = 2048 /\ read_back b = Some ["4"; "2"]%char).
Proof.
  split; [|split].
  - assert (N : forall n, In n ["a.txt"; "b/c"]%string -> plain_name n).
    { intros n [<-|[<-|[]]]; (split; [cbn; lia|]; split; [repeat constructor; cbn; lia|]).
      - intros d. destruct d as [|? [|? [|? [|? [|? [|? d]]]]]]; discriminate.
      - intros d. destruct d as [|? [|? [|? [|? d]]]]; discriminate. }
    unfold exf. constructor; [|constructor; [|constructor]]; (split; [apply N; cbn; tauto|]); cbn; split; lia.
  - eexists. split; [vm_compute; reflexivity|]. split; vm_compute; reflexivity.
  - eexists. split; [vm_compute; reflexivity|]. split; vm_compute; reflexivity.
Qed.
