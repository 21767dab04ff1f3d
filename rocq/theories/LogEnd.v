(** C86: a task's log from the process to the reader.  broker/log.go (LogShip.v), the two brokers' transport of a log part
    (broker/inmemory.go:300-315, broker/rabbitmq.go:659-674 with json.Marshal/json.Unmarshal, 401-411 and 433-438),
    internal/coordinator/handlers/log.go:22-27, datastore/postgres/postgres.go:878-894 (CreateTaskLogPart),
    record.go:306-314 (toTaskLogPart) and 963-995 (GetTaskLogParts, Listing.v). *)
From Coq Require Import Permutation Sorted Ascii.
From Verif Require Import Types World Listing LogShip.
Open Scope list_scope.
Open Scope Z_scope.

(* ------------------------------------------------------------------ *)
(** * Specification: text *)
(** The byte sequences that encode one character in UTF-8 (The Unicode Standard, Table 3-7): which bytes may follow the
    first.  [None]: no character begins with this byte. *)
Definition byte (a : ascii) : Z := Z.of_N (N_of_ascii a).
Definition followers (b : Z) : option (list (Z * Z)) :=
  let c := (128, 191) in
  if b <=? 127 then Some []
  else if (194 <=? b) && (b <=? 223) then Some [c]
  else if b =? 224 then Some [(160, 191); c]
  else if (225 <=? b) && (b <=? 236) then Some [c; c]
  else if b =? 237 then Some [(128, 159); c]
  else if (238 <=? b) && (b <=? 239) then Some [c; c]
  else if b =? 240 then Some [(144, 191); c; c]
  else if (241 <=? b) && (b <=? 243) then Some [c; c; c]
  else if b =? 244 then Some [(128, 143); c; c]
  else None.
Fixpoint follow (fs : list (Z * Z)) (l : bytes) : bool :=
  match fs, l with
  | [], _ => true
  | (lo, hi) :: fs, a :: l => (lo <=? byte a) && (byte a <=? hi) && follow fs l
  | _ :: _, [] => false
  end.
(** [char_at l]: a character is encoded at the head of [l]; the number of its bytes after the first *)
Definition char_at (l : bytes) : option nat :=
  match l with
  | [] => None
  | a :: r => match followers (byte a) with Some fs => if follow fs r then Some (length fs) else None | None => None end
  end.
(** the whole of [l] is a sequence of characters, after [skip] bytes that belong to one already seen *)
Fixpoint utf8_from (skip : nat) (l : bytes) : bool :=
  match l with
  | [] => true
  | a :: r => match skip with S k => utf8_from k r | O => match char_at (a :: r) with Some k => utf8_from k r | None => false end end
  end.
Definition utf8 := utf8_from 0.
Definition nul : ascii := zero.

(* ------------------------------------------------------------------ *)
(** * Model *)
(** the contents of a stored part; Go strings and the text column are byte strings *)
Definition str (l : bytes) : string := string_of_list_ascii l.
Definition unstr (s : string) : bytes := list_ascii_of_string s.

(** broker/log.go:45-49 *)
Record lpart := mkLpart { lp_task : option id; lp_number : Z; lp_contents : bytes }.
(** json.Marshal writes U+FFFD for every byte at which no character is encoded; everything else comes back as it was from
    json.Unmarshal (encoding/json appendString/unquote: "\u0000" for NUL and so on) *)
Definition fffd : bytes := ["239"; "191"; "189"]%char.
Fixpoint mend (skip : nat) (l : bytes) : bytes :=
  match l with
  | [] => []
  | a :: r => match skip with S k => a :: mend k r | O => match char_at (a :: r) with Some k => a :: mend k r | None => fffd ++ mend 0 r end end
  end.
(** inmemory.go:300-315 hands over the value; rabbitmq.go:401-411, 433-438 goes through JSON *)
Inductive transport := InMemory | RabbitMQ.
Definition carry (b : transport) (p : lpart) : lpart :=
  match b with InMemory => p | RabbitMQ => mkLpart (lp_task p) (lp_number p) (mend 0 (lp_contents p)) end.

(** postgres.go:878-894.  The insert fails if the number does not fit schema.go:180's int, if the task is not in the table
    ([present]; schema.go:181 references tasks(id)) or if the contents are not text to Postgres: not UTF-8 or with a NUL.
    A serial id of its own is left out: nothing reads it. *)
Definition is_text (c : bytes) : bool := utf8 c && negb (existsb (Ascii.eqb nul) c).
Definition create_part (present : bool) (now : time) (p : lpart) (table : list lrow) : list lrow + string :=
  match lp_task p with
  | None => inr "must provide task id"%string
  | Some t =>
      if lp_number p <? 1 then inr "part number must be > 0"%string
      else if (lp_number p <? 2 ^ 31) && present && is_text (lp_contents p)
      then inl (table ++ [mkLrow t (lp_number p) now (str (lp_contents p))])
      else inr "error inserting task log part to the db"%string
  end.
(** handlers/log.go:22-27: an error is logged and the message is gone (the handler returns nothing: rabbitmq.go:670 acks) *)
Definition handle (present : bool) (now : time) (p : lpart) (table : list lrow) : list lrow :=
  match create_part present now p table with inl table' => table' | inr _ => table end.
(** what the handler is called with, one after the other: log parts of all tasks, in any order *)
Record arrival := mkArrival { ar_part : lpart; ar_present : bool; ar_now : time }.
Fixpoint handle_all (l : list arrival) (table : list lrow) : list lrow :=
  match l with [] => table | a :: l => handle_all l (handle (ar_present a) (ar_now a) (ar_part a) table) end.

(** broker/log.go:45-49: what the shipper of task [t] has published *)
Definition published_part (t : id) (x : nat * bytes * bool) : lpart := mkLpart (Some t) (Z.of_nat (number x)) (snd (fst x)).
Definition is_task (t : id) (p : lpart) : bool := match lp_task p with Some x => N.eqb x t | None => false end.
(** the log messages of task [t] among the arrivals *)
Definition of_task (t : id) (l : list arrival) : list lpart := filter (is_task t) (map ar_part l).
(** what a reader does: pages 1, 2, ... total; the last part comes first, so the other way round *)
Definition read_log (get : Z -> @page lrow) (total : Z) : bytes := flat_map (fun r => unstr (lr_contents r)) (rev (all_items get 1 (Z.to_nat total))).

(* ------------------------------------------------------------------ *)
(** * Proofs *)
Lemma unstr_str l : unstr (str l) = l.
Proof. apply list_ascii_of_string_of_list_ascii. Qed.
Lemma mend_utf8 l : forall k, utf8_from k l = true -> mend k l = l.
Proof.
  induction l as [|a r IH]; intros k H; [reflexivity|]. cbn [mend utf8_from] in *. destruct k as [|k]; [|f_equal; auto].
  destruct (char_at (a :: r)); [f_equal; auto|discriminate].
Qed.
(** exactly the texts come through unchanged *)
Lemma mend_length l : forall k, (length l <= length (mend k l))%nat.
Proof.
  induction l as [|a r IH]; intros k; [cbn; lia|]. cbn [mend]. destruct k as [|k]; [|cbn; specialize (IH k); lia].
  destruct (char_at (a :: r)) as [k|]; [cbn; specialize (IH k); lia|]. rewrite app_length. cbn. specialize (IH 0%nat). lia.
Qed.
Lemma mend_id l : forall k, mend k l = l -> utf8_from k l = true.
Proof.
  induction l as [|a r IH]; intros k H; [reflexivity|]. cbn [mend utf8_from] in *. destruct k as [|k].
  - destruct (char_at (a :: r)) as [k|]; [injection H as H; auto|]. exfalso. apply (f_equal (@length _)) in H. rewrite app_length in H.
    pose proof (mend_length r 0%nat). cbn in H. lia.
  - injection H as H. auto.
Qed.
Lemma char_at_ascii a r : byte a < 128 -> char_at (a :: r) = Some 0%nat.
Proof. intros H. unfold char_at, followers. destruct (Z.leb_spec (byte a) 127); [reflexivity|lia]. Qed.
Lemma utf8_ascii l : Forall (fun a => byte a < 128) l -> utf8 l = true.
Proof.
  unfold utf8. induction 1 as [|a l H _ IH]; [reflexivity|]. cbn [utf8_from]. rewrite (char_at_ascii a l H). exact IH.
Qed.
(** ** What [utf8] says, by code points (RFC 3629): the bytes are the encodings of some scalar values of Unicode *)
Definition scalar (c : Z) : Prop := 0 <= c <= 1114111 /\ ~ (55296 <= c <= 57343).
Definition encode (c : Z) : list Z :=
  if c <? 128 then [c]
  else if c <? 2048 then [192 + c / 64; 128 + c mod 64]
  else if c <? 65536 then [224 + c / 4096; 128 + c / 64 mod 64; 128 + c mod 64]
  else [240 + c / 262144; 128 + c / 4096 mod 64; 128 + c / 64 mod 64; 128 + c mod 64].
Ltac decide_tests := repeat match goal with
  | |- context [?a <=? ?b] => first [ replace (a <=? b) with true by (symmetry; apply Z.leb_le; lia) | replace (a <=? b) with false by (symmetry; apply Z.leb_gt; lia) ]
  | |- context [?a =? ?b] => first [ replace (a =? b) with true by (symmetry; apply Z.eqb_eq; lia) | replace (a =? b) with false by (symmetry; apply Z.eqb_neq; lia) ]
  end; cbn [andb].
Lemma encode1 b : 0 <= b <= 127 -> encode b = [b].
Proof. intros H. unfold encode. destruct (Z.ltb_spec b 128); [reflexivity|lia]. Qed.
Lemma digits64 a b : 0 <= b < 64 -> (a * 64 + b) / 64 = a /\ (a * 64 + b) mod 64 = b.
Proof. intros H. split; [rewrite Z.div_add_l by lia; rewrite Z.div_small by lia; lia|]. rewrite Z.add_comm, Z.mod_add by lia. apply Z.mod_small; lia. Qed.
Lemma encode2 a b : 2 <= a < 32 -> 0 <= b < 64 -> encode (a * 64 + b) = [192 + a; 128 + b].
Proof. intros H1 H2. destruct (digits64 a b H2) as (D & M). unfold encode. destruct (Z.ltb_spec (a * 64 + b) 128); [lia|]. destruct (Z.ltb_spec (a * 64 + b) 2048); [|lia]. now rewrite D, M. Qed.
Lemma encode3 a b c : 0 <= a < 16 -> 0 <= b < 64 -> 0 <= c < 64 -> 32 <= a * 64 + b -> encode ((a * 64 + b) * 64 + c) = [224 + a; 128 + b; 128 + c].
Proof.
  intros H1 H2 H3 H4. destruct (digits64 (a * 64 + b) c H3) as (D & M). destruct (digits64 a b H2) as (D' & M'). unfold encode.
  destruct (Z.ltb_spec ((a * 64 + b) * 64 + c) 128); [lia|]. destruct (Z.ltb_spec ((a * 64 + b) * 64 + c) 2048); [lia|]. destruct (Z.ltb_spec ((a * 64 + b) * 64 + c) 65536); [|lia].
  change 4096 with (64 * 64). rewrite <- Z.div_div by lia. now rewrite D, M, D', M'.
Qed.
Lemma encode4 a b c d : 0 <= a -> 0 <= b < 64 -> 0 <= c < 64 -> 0 <= d < 64 -> 16 <= a * 64 + b ->
  encode (((a * 64 + b) * 64 + c) * 64 + d) = [240 + a; 128 + b; 128 + c; 128 + d].
Proof.
  intros H1 H2 H3 H5 H4. destruct (digits64 ((a * 64 + b) * 64 + c) d H5) as (D0 & M0). destruct (digits64 (a * 64 + b) c H3) as (D & M). destruct (digits64 a b H2) as (D' & M'). unfold encode.
  set (x := ((a * 64 + b) * 64 + c) * 64 + d) in *. assert (65536 <= x) by (unfold x; lia).
  destruct (Z.ltb_spec x 128); [lia|]. destruct (Z.ltb_spec x 2048); [lia|]. destruct (Z.ltb_spec x 65536); [lia|].
  change 262144 with (64 * (64 * 64)). change 4096 with (64 * 64). rewrite <- !Z.div_div by lia. now rewrite D0, M0, D, M, D', M'.
Qed.
Lemma byte_range a : 0 <= byte a <= 255.
Proof. unfold byte. pose proof (N_ascii_bounded a). lia. Qed.
(** the numbers in an encoding *)
Lemma scalar_cases c : scalar c ->
  (0 <= c <= 127) \/ (exists a b, 2 <= a < 32 /\ 0 <= b < 64 /\ c = a * 64 + b) \/
  (exists a b d, 0 <= a < 16 /\ 0 <= b < 64 /\ 0 <= d < 64 /\ 32 <= a * 64 + b /\ ~ (a = 13 /\ 32 <= b) /\ c = (a * 64 + b) * 64 + d) \/
  (exists a b d e, 0 <= a /\ 0 <= b < 64 /\ 0 <= d < 64 /\ 0 <= e < 64 /\ 16 <= a * 64 + b < 272 /\ c = ((a * 64 + b) * 64 + d) * 64 + e).
Proof.
  intros ((H0 & H1) & H2). assert (D : forall x, 0 <= x -> x = x / 64 * 64 + x mod 64 /\ 0 <= x mod 64 < 64 /\ 0 <= x / 64).
  { intros x Hx. split; [rewrite Z.mul_comm; apply Z.div_mod; lia|]. split; [apply Z.mod_pos_bound; lia|apply Z.div_pos; lia]. }
  destruct (Z.leb_spec c 127) as [L1|L1]; [left; lia|]. right. destruct (D c H0) as (E1 & B1 & P1).
  destruct (Z.leb_spec c 2047) as [L2|L2]; [left; exists (c / 64), (c mod 64); lia|]. right. destruct (D (c / 64) P1) as (E2 & B2 & P2).
  destruct (Z.leb_spec c 65535) as [L3|L3].
  - left. exists (c / 64 / 64), (c / 64 mod 64), (c mod 64). lia.
  - right. destruct (D (c / 64 / 64) P2) as (E3 & B3 & P3). exists (c / 64 / 64 / 64), (c / 64 / 64 mod 64), (c / 64 mod 64), (c mod 64). lia.
Qed.
Ltac split_tests H := repeat match type of H with
  | context [?a <=? ?b] => destruct (Z.leb_spec a b); cbn [andb] in H
  | context [?a =? ?b] => destruct (Z.eqb_spec a b); cbn [andb] in H
  end.
Lemma char_at_scalar l k : char_at l = Some k -> exists c, scalar c /\ map byte (firstn (S k) l) = encode c /\ (S k <= length l)%nat.
Proof.
  destruct l as [|a r]; [discriminate|]. cbn [char_at]. intros H. pose proof (byte_range a) as Ba.
  destruct (followers (byte a)) as [fs|] eqn:E; [|discriminate]. destruct (follow fs r) eqn:F; [|discriminate]. injection H as <-.
  assert (S : (fs = [] /\ byte a <= 127) \/ (exists x, fs = [x] /\ x = (128, 191) /\ 194 <= byte a <= 223) \/
    (exists lo hi, fs = [(lo, hi); (128, 191)] /\ 224 <= byte a <= 239 /\ 128 <= lo /\ hi <= 191 /\ (byte a = 224 -> lo = 160) /\ (byte a = 237 -> hi = 159)) \/
    (exists lo hi, fs = [(lo, hi); (128, 191); (128, 191)] /\ 240 <= byte a <= 244 /\ 128 <= lo /\ hi <= 191 /\ (byte a = 240 -> lo = 144) /\ (byte a = 244 -> hi = 143))).
  { unfold followers in E. cbv zeta in E. split_tests E; try discriminate; injection E as <-; try lia;
      first [left; split; [reflexivity|lia] | right; left; eexists; split; [reflexivity|split; [reflexivity|lia]]
            | right; right; left; eexists _, _; split; [reflexivity|lia] | right; right; right; eexists _, _; split; [reflexivity|lia]]. }
  destruct S as [(-> & S)|[(x & -> & -> & S)|[(lo & hi & -> & S)|(lo & hi & -> & S)]]].
  - exists (byte a). split; [split; lia|]. split; [cbn; rewrite encode1 by lia; reflexivity|cbn; lia].
  - destruct r as [|b r]; [discriminate|]. cbn [follow] in F. rewrite !andb_true_iff, !Z.leb_le in F.
    exists ((byte a - 192) * 64 + (byte b - 128)). split; [split; lia|]. rewrite encode2 by lia. split; [|cbn; lia]. cbn [length firstn map]. f_equal; [lia|]. f_equal. lia.
  - destruct r as [|b r]; [discriminate|]. destruct r as [|c r]; [cbn [follow] in F; rewrite andb_false_r in F; discriminate|]. cbn [follow] in F. rewrite !andb_true_iff, !Z.leb_le in F.
    exists (((byte a - 224) * 64 + (byte b - 128)) * 64 + (byte c - 128)). split; [split; lia|]. rewrite encode3 by lia. split; [|cbn; lia].
    cbn [length firstn map]. f_equal; [lia|]. f_equal; [lia|]. f_equal. lia.
  - destruct r as [|b r]; [discriminate|]. destruct r as [|c r]; [cbn [follow] in F; rewrite andb_false_r in F; discriminate|].
    destruct r as [|d r]; [cbn [follow] in F; rewrite !andb_false_r in F; discriminate|]. cbn [follow] in F. rewrite !andb_true_iff, !Z.leb_le in F.
    exists ((((byte a - 240) * 64 + (byte b - 128)) * 64 + (byte c - 128)) * 64 + (byte d - 128)). split; [split; lia|]. rewrite encode4 by lia. split; [|cbn; lia].
    cbn [length firstn map]. f_equal; [lia|]. f_equal; [lia|]. f_equal; [lia|]. f_equal. lia.
Qed.
Lemma map_cons_inv {X Y} (f : X -> Y) l y ys : map f l = y :: ys -> exists x l', l = x :: l' /\ f x = y /\ map f l' = ys.
Proof. destruct l as [|x l]; [discriminate|]. cbn. intros E. injection E as <- <-. eauto. Qed.
Lemma scalar_char_at c l zs : scalar c -> map byte l = encode c ++ zs -> exists k, char_at l = Some k /\ S k = length (encode c).
Proof.
  intros H E. destruct (scalar_cases c H) as [B|[(a & b & B)|[(a & b & d & B)|(a & b & d & e & B)]]].
  - rewrite encode1 in * by lia. cbn [app] in E. apply map_cons_inv in E. destruct E as (x & l' & -> & E & _).
    exists O. split; [|reflexivity]. apply char_at_ascii. lia.
  - destruct B as (B1 & B2 & ->). rewrite encode2 in * by lia. cbn [app] in E.
    apply map_cons_inv in E. destruct E as (x & l' & -> & E1 & E). apply map_cons_inv in E. destruct E as (y & l2 & -> & E2 & _).
    exists 1%nat. split; [|reflexivity]. cbn [char_at]. unfold followers. cbv zeta. rewrite E1. decide_tests. cbn [follow length]. rewrite E2. decide_tests. reflexivity.
  - destruct B as (B1 & B2 & B3 & B4 & B5 & ->). rewrite encode3 in * by lia. cbn [app] in E.
    apply map_cons_inv in E. destruct E as (x & l' & -> & E1 & E). apply map_cons_inv in E. destruct E as (y & l2 & -> & E2 & E). apply map_cons_inv in E. destruct E as (z & l3 & -> & E3 & _).
    exists 2%nat. split; [|reflexivity]. cbn [char_at]. unfold followers. cbv zeta. rewrite E1.
    assert (a = 0 \/ 1 <= a <= 12 \/ a = 13 \/ 14 <= a <= 15) as [A|[A|[A|A]]] by lia; decide_tests; cbn [follow length]; rewrite E2, E3; decide_tests; reflexivity.
  - destruct B as (B1 & B2 & B3 & B3' & B4 & ->). rewrite encode4 in * by lia. cbn [app] in E.
    apply map_cons_inv in E. destruct E as (x & l' & -> & E1 & E). apply map_cons_inv in E. destruct E as (y & l2 & -> & E2 & E).
    apply map_cons_inv in E. destruct E as (z & l3 & -> & E3 & E). apply map_cons_inv in E. destruct E as (w & l4 & -> & E4 & _).
    exists 3%nat. split; [|reflexivity]. cbn [char_at]. unfold followers. cbv zeta. rewrite E1.
    assert (a = 0 \/ 1 <= a <= 3 \/ a = 4) as [A|[A|A]] by lia; decide_tests; cbn [follow length]; rewrite E2, E3, E4; decide_tests; reflexivity.
Qed.
Lemma utf8_skip k : forall l, (k <= length l)%nat -> utf8_from k l = utf8_from 0 (skipn k l).
Proof. induction k as [|k IH]; intros [|a l] H; try reflexivity. cbn in H. cbn [utf8_from skipn]. apply IH. lia. Qed.
Theorem C86_text_is_utf8 : forall l, utf8 l = true <-> exists cs, Forall scalar cs /\ map byte l = flat_map encode cs.
Proof.
  intros l. unfold utf8. split.
  - enough (G : forall n l, (length l <= n)%nat -> utf8_from 0 l = true -> exists cs, Forall scalar cs /\ map byte l = flat_map encode cs) by (apply (G (length l)); reflexivity).
    clear l. induction n as [|n IH]; intros [|a r] Hl H; try (exists []; split; [constructor|reflexivity]); [cbn in Hl; lia|]. cbn [utf8_from] in H.
    destruct (char_at (a :: r)) as [k|] eqn:E; [|discriminate]. destruct (char_at_scalar _ _ E) as (c & Hc & M & Lk). cbn in Lk, Hl.
    rewrite utf8_skip in H by lia. destruct (IH (skipn k r)) as (cs & Hcs & Mcs); [rewrite skipn_length; lia|exact H|].
    exists (c :: cs). split; [constructor; assumption|]. cbn [flat_map]. rewrite <- M, <- Mcs, <- map_app. cbn [firstn app]. now rewrite firstn_skipn.
  - intros (cs & Hcs & M). revert l M. induction Hcs as [|c cs Hc _ IH]; intros l M.
    + cbn in M. destruct l; [reflexivity|discriminate].
    + cbn [flat_map] in M. destruct (scalar_char_at c l _ Hc M) as (k & E & Lk). destruct l as [|a r]; [discriminate|]. cbn [utf8_from]. rewrite E.
      assert (L := f_equal (@length Z) M). rewrite map_length, app_length, <- Lk in L. cbn in L.
      rewrite utf8_skip by lia. apply IH. assert (S := f_equal (skipn (S k)) M). rewrite Lk in S at 2. rewrite skipn_app, skipn_all, Nat.sub_diag in S. cbn [app skipn] in S.
      rewrite <- S. cbn [map skipn]. symmetry. apply skipn_map.
Qed.

Lemma handle_all_app l l' tb : handle_all (l ++ l') tb = handle_all l' (handle_all l tb).
Proof. revert tb. induction l as [|a l IH]; intros tb; [reflexivity|]. cbn. apply IH. Qed.

Definition mine (t : id) (tb : list lrow) : list lrow := filter (fun x => N.eqb (lr_task x) t) tb.
Definition key (r : lrow) : Z * bytes := (lr_number r, unstr (lr_contents r)).
Definition pkey (p : lpart) : Z * bytes := (lp_number p, lp_contents p).
Lemma handle_other t a tb : is_task t (ar_part a) = false -> mine t (handle (ar_present a) (ar_now a) (ar_part a) tb) = mine t tb.
Proof.
  unfold is_task, handle, create_part, mine. destruct (lp_task (ar_part a)) as [x|]; [|reflexivity]. intros E. destruct (_ <? 1); [reflexivity|].
  destruct (_ && _ && _); [|reflexivity]. rewrite filter_app. cbn. rewrite E. apply app_nil_r.
Qed.
Lemma handle_mine t a tb : is_task t (ar_part a) = true -> ar_present a = true -> 1 <= lp_number (ar_part a) < 2 ^ 31 ->
  map key (mine t (handle (ar_present a) (ar_now a) (ar_part a) tb)) =
  map key (mine t tb) ++ (if is_text (lp_contents (ar_part a)) then [pkey (ar_part a)] else []).
Proof.
  unfold is_task, handle, create_part, mine. destruct (lp_task (ar_part a)) as [x|]; [|discriminate]. intros E P (S1 & S2).
  rewrite P. destruct (Z.ltb_spec (lp_number (ar_part a)) 1); [lia|]. destruct (Z.ltb_spec (lp_number (ar_part a)) (2 ^ 31)); [|lia].
  cbn [andb]. destruct (is_text _); [|now rewrite app_nil_r]. rewrite filter_app. cbn [filter lr_task]. rewrite E, map_app. cbn. unfold key, pkey. cbn. now rewrite unstr_str.
Qed.
Lemma handle_all_mine t l : forall tb,
  (forall a, In a l -> is_task t (ar_part a) = true -> ar_present a = true) -> (forall p, In p (of_task t l) -> 1 <= lp_number p < 2 ^ 31) ->
  map key (mine t (handle_all l tb)) = map key (mine t tb) ++ map pkey (filter (fun p => is_text (lp_contents p)) (of_task t l)).
Proof.
  induction l as [|a l IH]; intros tb Hp Hs; [cbn; now rewrite app_nil_r|]. cbn [handle_all]. rewrite IH.
  - unfold of_task in *. cbn [map filter] in *. destruct (is_task t (ar_part a)) eqn:E.
    + rewrite handle_mine; [|exact E|apply Hp; [now left|exact E]|apply Hs; now left]. cbn [filter]. rewrite <- app_assoc.
      destruct (is_text _); reflexivity.
    + rewrite handle_other by exact E. reflexivity.
  - intros a' Ha'. apply Hp. now right.
  - intros p Hi. apply Hs. unfold of_task in *. cbn [map filter]. destruct (is_task t (ar_part a)); [now right|exact Hi].
Qed.
Lemma filter_perm {X} (f : X -> bool) l l' : Permutation l l' -> Permutation (filter f l) (filter f l').
Proof.
  induction 1 as [|x l l' _ IH|x y l|l l' l'' _ IH1 _ IH2]; cbn; [constructor|..].
  - destruct (f x); [now constructor|exact IH].
  - destruct (f x), (f y); try apply Permutation_refl. apply perm_swap.
  - eapply Permutation_trans; eassumption.
Qed.
Lemma filter_length_le {X} (f : X -> bool) l : (length (filter f l) <= length l)%nat.
Proof. induction l as [|x l IH]; cbn; [lia|]. destruct (f x); cbn; lia. Qed.
Lemma filter_map {X Y} (f : Y -> bool) (g : X -> Y) l : filter f (map g l) = map g (filter (fun x => f (g x)) l).
Proof. induction l as [|x l IH]; [reflexivity|]. cbn. rewrite IH. destruct (f (g x)); reflexivity. Qed.
Lemma sorted_filter {X} (R : X -> X -> Prop) (f : X -> bool) l : StronglySorted R l -> StronglySorted R (filter f l).
Proof.
  induction 1 as [|x l S IH F]; cbn; [constructor|]. destruct (f x); [|exact IH]. constructor; [exact IH|].
  rewrite Forall_forall in *. intros y Hy. apply filter_In in Hy. apply F. tauto.
Qed.
Lemma nodup_map_filter {X Y} (g : X -> Y) (f : X -> bool) l : NoDup (map g l) -> NoDup (map g (filter f l)).
Proof.
  induction l as [|x l IH]; cbn; [auto|]. intros N. inversion N as [|? ? N1 N2]; subst. destruct (f x); [|auto]. cbn. constructor; [|auto].
  intros Hi. apply N1. apply in_map_iff in Hi. destruct Hi as (y & E & Hy). apply filter_In in Hy. apply in_map_iff. exists y. tauto.
Qed.

Lemma sorted_app {X} (R : X -> X -> Prop) l1 l2 : StronglySorted R l1 -> StronglySorted R l2 -> (forall x y, In x l1 -> In y l2 -> R x y) -> StronglySorted R (l1 ++ l2).
Proof.
  intros S1 S2 H. induction S1 as [|x l1 S1 IH F]; [exact S2|]. cbn. constructor; [apply IH; intros; apply H; [now right|assumption]|].
  apply Forall_app. split; [exact F|]. apply Forall_forall. intros y Hy. apply H; [now left|exact Hy].
Qed.
Lemma sorted_rev {X} (R : X -> X -> Prop) l : StronglySorted R l -> StronglySorted (fun x y => R y x) (rev l).
Proof.
  induction 1 as [|x l S IH F]; [constructor|]. cbn. apply sorted_app; [exact IH|repeat constructor|]. intros a b Ha [<-|[]].
  rewrite Forall_forall in F. apply F. now apply in_rev.
Qed.
Lemma sorted_map {X Y} (f : X -> Y) (R : Y -> Y -> Prop) l : StronglySorted (fun x y => R (f x) (f y)) l -> StronglySorted R (map f l).
Proof. induction 1 as [|x l S IH F]; cbn; constructor; [exact IH|]. apply Forall_map. exact F. Qed.
Lemma seq_keys (l : list (nat * bytes * bool)) : forall n k, map number l = seq n k ->
  StronglySorted (fun x y => (number x <= number y)%nat) l /\ NoDup (map number l).
Proof.
  induction l as [|x l IH]; intros n k H; [split; constructor|]. destruct k as [|k]; [discriminate|]. cbn in H. injection H as H1 H2.
  destruct (IH _ _ H2) as (I1 & I2). cbn [map]. assert (B : forall y, In y l -> (n < number y)%nat).
  { intros y Hy. apply (in_map number) in Hy. rewrite H2 in Hy. apply in_seq in Hy. lia. }
  split.
  - constructor; [exact I1|]. apply Forall_forall. intros y Hy. specialize (B y Hy). lia.
  - constructor; [|exact I2]. intros Hi. apply in_map_iff in Hi. destruct Hi as (y & E & Hy). specialize (B y Hy). lia.
Qed.

(* ------------------------------------------------------------------ *)
(** * Theorems *)
(** the contents of a part when they reach the handler *)
Definition carried (b : transport) (c : bytes) : bytes := match b with InMemory => c | RabbitMQ => mend 0 c end.
Definition text (c : bytes) : Prop := utf8 c = true /\ ~ In nul c.
Lemma is_text_spec c : is_text c = true <-> text c.
Proof.
  unfold is_text, text. rewrite andb_true_iff, negb_true_iff. split; intros (A & B); split; auto.
  - intros Hi. assert (E : existsb (Ascii.eqb nul) c = true) by (apply existsb_exists; exists nul; split; [exact Hi|apply Ascii.eqb_refl]). congruence.
  - destruct (existsb (Ascii.eqb nul) c) eqn:Ex; [|reflexivity]. apply existsb_exists in Ex. destruct Ex as (x & Hx & Ex).
    apply Ascii.eqb_eq in Ex. subst x. contradiction.
Qed.

(** ** What is read
    The shipper of task [t] did [tr]; each part whose publication succeeded reached the handler once, in any order, among any
    log messages of other tasks.  Then the pages of the task's log, read from the last to the first, are the contents of
    those parts in the order they were written, as the broker carries them, without the parts that are not text: those are
    missing as a whole. *)
Theorem C86_what_is_read : forall tm tr s b t arr table size get total,
  sruns ship0 tr s -> Z.of_nat (length (parts tr)) < 2 ^ 31 ->
  Permutation (of_task t arr) (map (fun x => carry b (published_part t x)) (delivered tr)) ->
  (forall a, In a arr -> is_task t (ar_part a) = true -> ar_present a = true) ->
  (forall r, In r table -> lr_task r <> t) ->
  let table' := handle_all arr table in
  1 <= size < 2 ^ 62 -> total = total_pages (Z.of_nat (length (filter (fun r => N.eqb (lr_task r) t) table'))) size ->
  (forall p, 1 <= p <= total -> get_task_log tm table' t "" p size (Some (get p))) ->
  exists kept, read_log get total = flat_map (fun x => carried b (snd (fst x))) kept /\
    (forall x, In x kept <-> In x (parts tr) /\ snd x = true /\ text (carried b (snd (fst x)))) /\
    StronglySorted (fun x y => (number x <= number y)%nat) kept /\ NoDup kept.
Proof.
  intros tm tr s b t arr table size get total Hr Hlen Hperm Hpres Hno table' Hsize Htotal Hget.
  destruct (ship_inv tr s Hr) as (I1 & I2 & _ & _).
  destruct (seq_keys (parts tr) 1 (sh_part s) I2) as (Ssort & Snd).
  set (kept := filter (fun x => is_text (carried b (snd (fst x)))) (delivered tr)).
  assert (Ksort : StronglySorted (fun x y => (number x <= number y)%nat) kept) by (apply sorted_filter, sorted_filter; exact Ssort).
  assert (Knd : NoDup (map number kept)) by (apply nodup_map_filter, nodup_map_filter; exact Snd).
  assert (Kin : forall x, In x kept <-> In x (parts tr) /\ snd x = true /\ text (carried b (snd (fst x)))).
  { intros x. unfold kept, delivered. rewrite !filter_In, is_text_spec. tauto. }
  exists kept. split; [|split; [exact Kin|split; [exact Ksort|eapply NoDup_map_inv; exact Knd]]].
  assert (Eq : forall x, carry b (published_part t x) = mkLpart (Some t) (Z.of_nat (number x)) (carried b (snd (fst x)))) by (intros x; destruct b; reflexivity).
  assert (Hst : forall p, In p (of_task t arr) -> 1 <= lp_number p < 2 ^ 31).
  { intros p Hi. eapply Permutation_in in Hi; [|exact Hperm]. apply in_map_iff in Hi. destruct Hi as (x & <- & Hi). rewrite Eq. cbn.
    apply filter_In in Hi. destruct Hi as (Hi & _). apply (in_map number) in Hi. rewrite I2 in Hi. apply in_seq in Hi.
    assert (L : sh_part s = length (parts tr)) by (rewrite <- (map_length number), I2; symmetry; apply seq_length). lia. }
  pose proof (handle_all_mine t arr table Hpres Hst) as Hm. fold table' in Hm.
  assert (Hnone : mine t table = []).
  { apply filter_nil_iff. intros r Hi. apply N.eqb_neq. auto. }
  rewrite Hnone in Hm. cbn [map app] in Hm.
  set (pk := map (fun x => (Z.of_nat (number x), carried b (snd (fst x)))) kept).
  assert (Pk : Permutation (map key (mine t table')) pk).
  { rewrite Hm. eapply Permutation_trans; [apply Permutation_map, filter_perm; exact Hperm|]. rewrite filter_map, map_map. unfold pk, kept.
    rewrite (filter_ext _ (fun x => is_text (carried b (snd (fst x))))) by (intros x; rewrite Eq; reflexivity).
    erewrite map_ext; [apply Permutation_refl|]. intros x. rewrite Eq. reflexivity. }
  assert (Psort : StronglySorted (fun x y => fst x <= fst y) pk).
  { apply sorted_map. cbn. eapply StronglySorted_weaken; [|exact Ksort]. cbn. intros; lia. }
  assert (Pnd : NoDup (map fst pk)).
  { unfold pk. rewrite map_map. cbn. rewrite <- (map_map number Z.of_nat). apply FinFun.Injective_map_NoDup; [intros x y; apply Nat2Z.inj|exact Knd]. }
  assert (Nd : NoDup (map lr_number (mine t table'))).
  { apply (Permutation_map fst) in Pk. rewrite map_map in Pk. cbn in Pk. eapply Permutation_NoDup; [apply Permutation_sym; exact Pk|exact Pnd]. }
  assert (Len : (length (mine t table') <= length (parts tr))%nat).
  { apply Permutation_length in Pk. unfold pk in Pk. rewrite !map_length in Pk. rewrite Pk. unfold kept, delivered.
    transitivity (length (filter (fun x => snd x) (parts tr))); apply filter_length_le. }
  destruct (C33_task_log_pages tm table' t size get total) as (P1 & P2 & _).
  - lia.
  - exact Nd.
  - fold (mine t table'). lia.
  - exact Htotal.
  - exact Hget.
  - fold (mine t table') in P1. set (all := all_items get 1 (Z.to_nat total)) in *. change (read_log get total) with (flat_map (fun r => unstr (lr_contents r)) (rev all)).
    assert (PA : Permutation (map key (rev all)) pk).
    { eapply Permutation_trans; [apply Permutation_map, Permutation_sym, Permutation_rev|]. eapply Permutation_trans; [apply Permutation_map; exact P1|exact Pk]. }
    assert (E : map key (rev all) = pk).
    { apply (sorted_unique (fun x y : Z * bytes => fst x <= fst y)); [exact PA| |apply sorted_map; apply sorted_rev in P2; exact P2|exact Psort].
      intros x y Hx Hy A B. eapply Permutation_in in Hx; [|exact PA]. eapply Permutation_in in Hy; [|exact PA].
      destruct x as [n c], y as [m d]. cbn in A, B. assert (n = m) by lia. subst m. f_equal.
      eapply nodup_fst_inj; [exact Pnd|exact Hx|exact Hy]. }
    transitivity (flat_map snd pk).
    + rewrite <- E. clear. induction (rev all) as [|r l IH]; [reflexivity|]. cbn. now rewrite IH.
    + unfold pk. clear. induction kept as [|x l IH]; [reflexivity|]. cbn. now rewrite IH.
Qed.
Print Assumptions C86_text_is_utf8.
Print Assumptions C86_what_is_read.

(** ** The log reads back
    If besides the shipper has nothing left, no publication failed and every part is text, what is read is what was written. *)
Theorem C86_log_reads_back : forall tm tr s b t arr table size get total,
  sruns ship0 tr s -> sh_q s = [] -> sh_buf s = [] -> Z.of_nat (length (parts tr)) < 2 ^ 31 ->
  (forall n c ok, In (n, c, ok) (parts tr) -> ok = true /\ text c) ->
  Permutation (of_task t arr) (map (fun x => carry b (published_part t x)) (delivered tr)) ->
  (forall a, In a arr -> is_task t (ar_part a) = true -> ar_present a = true) ->
  (forall r, In r table -> lr_task r <> t) ->
  let table' := handle_all arr table in
  1 <= size < 2 ^ 62 -> total = total_pages (Z.of_nat (length (filter (fun r => N.eqb (lr_task r) t) table'))) size ->
  (forall p, 1 <= p <= total -> get_task_log tm table' t "" p size (Some (get p))) ->
  read_log get total = written tr.
Proof.
  intros tm tr s b t arr table size get total Hr Hq Hb Hlen Hok Hperm Hpres Hno table' Hsize Htotal Hget.
  destruct (C86_what_is_read tm tr s b t arr table size get total Hr Hlen Hperm Hpres Hno Hsize Htotal Hget) as (kept & -> & Kin & Ks & Kn).
  destruct (ship_inv tr s Hr) as (I1 & I2 & _ & _). rewrite Hq, Hb in I1. cbn in I1. rewrite app_nil_r in I1. rewrite I1.
  destruct (seq_keys (parts tr) 1 (sh_part s) I2) as (Ss & Sn).
  assert (Hc : forall n c ok, In (n, c, ok) (parts tr) -> carried b c = c).
  { intros n c ok Hi. destruct b; [reflexivity|]. apply mend_utf8. apply (Hok n c ok Hi). }
  assert (E : kept = parts tr).
  { assert (P : Permutation kept (parts tr)).
    { apply NoDup_Permutation; [exact Kn|eapply NoDup_map_inv; exact Sn|]. intros [[n c] ok]. rewrite Kin. cbn. split; [tauto|]. intros Hi.
      rewrite (Hc n c ok Hi). destruct (Hok n c ok Hi). tauto. }
    apply (sorted_unique (fun x y => (number x <= number y)%nat)); [exact P| |exact Ks|exact Ss].
    intros x y Hx Hy A B. eapply Permutation_in in Hx; [|exact P]. eapply Permutation_in in Hy; [|exact P].
    assert (N : number x = number y) by lia. clear - Hx Hy N Sn. induction (parts tr) as [|w l IH]; [contradiction|]. cbn in Sn. inversion Sn as [|? ? N1 N2]; subst.
    destruct Hx as [<-|Hx], Hy as [<-|Hy]; auto; destruct N1; apply in_map_iff; eauto. }
  rewrite E. unfold contents. clear - Hc. induction (parts tr) as [|[[n c] ok] l IH]; [reflexivity|]. cbn. rewrite (Hc n c ok) by now left. f_equal. apply IH.
  intros n' c' ok' Hi. apply (Hc n' c' ok'). now right.
Qed.
Print Assumptions C86_log_reads_back.

(** In particular when the task writes plain ASCII without NUL. *)
Theorem C86_ascii_log_reads_back : forall tm tr s b t arr table size get total,
  sruns ship0 tr s -> sh_q s = [] -> sh_buf s = [] -> Z.of_nat (length (parts tr)) < 2 ^ 31 ->
  Forall (fun a => 0 < byte a < 128) (written tr) -> (forall n c ok, In (n, c, ok) (parts tr) -> ok = true) ->
  Permutation (of_task t arr) (map (fun x => carry b (published_part t x)) (delivered tr)) ->
  (forall a, In a arr -> is_task t (ar_part a) = true -> ar_present a = true) ->
  (forall r, In r table -> lr_task r <> t) ->
  let table' := handle_all arr table in
  1 <= size < 2 ^ 62 -> total = total_pages (Z.of_nat (length (filter (fun r => N.eqb (lr_task r) t) table'))) size ->
  (forall p, 1 <= p <= total -> get_task_log tm table' t "" p size (Some (get p))) ->
  read_log get total = written tr.
Proof.
  intros tm tr s b t arr table size get total Hr Hq Hb Hlen Hasc Hok. intros. eapply C86_log_reads_back; eauto.
  destruct (ship_inv tr s Hr) as (I1 & _). rewrite I1 in Hasc. apply Forall_app in Hasc. destruct Hasc as (Hasc & _).
  intros n c ok Hi. split; [eauto|]. rewrite Forall_forall in Hasc. assert (B : forall a, In a c -> 0 < byte a < 128).
  { intros a Ha. apply Hasc. apply in_flat_map. exists (n, c, ok). split; [exact Hi|exact Ha]. }
  split; [apply utf8_ascii, Forall_forall; intros a Ha; apply B in Ha; lia|]. intros Hn. apply B in Hn. cbn in Hn. lia.
Qed.
Print Assumptions C86_ascii_log_reads_back.

(** ** What JSON does to a part *)
Lemma follow_mend fs : forall r, follow fs r = true -> follow fs (mend (length fs) r) = true.
Proof.
  induction fs as [|[lo hi] fs IH]; intros r H; [reflexivity|]. destruct r as [|a r]; [discriminate|]. cbn [follow length mend] in *.
  apply andb_true_iff in H. destruct H as (-> & H). cbn. auto.
Qed.
Lemma char_at_mend a r k : char_at (a :: r) = Some k -> char_at (a :: mend k r) = Some k.
Proof.
  unfold char_at. destruct (followers (byte a)) as [fs|]; [|discriminate]. destruct (follow fs r) eqn:E; [|discriminate]. intros H. injection H as <-.
  now rewrite follow_mend.
Qed.
Lemma fffd_char m : char_at (fffd ++ m) = Some 2%nat. Proof. reflexivity. Qed.
Lemma mend_is_utf8 l : forall k, utf8_from k (mend k l) = true.
Proof.
  induction l as [|a r IH]; intros k; [reflexivity|]. cbn [mend]. destruct k as [|k].
  - destruct (char_at (a :: r)) as [k|] eqn:E; [cbn [utf8_from]; rewrite (char_at_mend a r k E); apply IH|].
    change (utf8_from 0 (fffd ++ mend 0 r)) with (match char_at (fffd ++ mend 0 r) with Some k => utf8_from k (["191"; "189"]%char ++ mend 0 r) | None => false end).
    rewrite fffd_char. cbn [app utf8_from]. apply IH.
  - cbn [utf8_from]. apply IH.
Qed.
Lemma nul_mend l : forall k, In nul (mend k l) <-> In nul l.
Proof.
  induction l as [|a r IH]; intros k; [reflexivity|]. cbn [mend]. destruct k as [|k]; [|cbn; now rewrite IH].
  destruct (char_at (a :: r)) as [k|] eqn:E; [cbn; now rewrite IH|]. rewrite in_app_iff, IH. split.
  - intros [H|H]; [|now right]. cbn in H. decompose [or] H; try discriminate; contradiction.
  - intros [->|H]; [|now right]. rewrite char_at_ascii in E by (cbn; lia). discriminate.
Qed.
(** Through RabbitMQ every part arrives as UTF-8, so a part is lost exactly if it has a NUL; it arrives as it was sent exactly
    if it is UTF-8. *)
Theorem C86_through_json : forall c, (text (carried RabbitMQ c) <-> ~ In nul c) /\ (carried RabbitMQ c = c <-> utf8 c = true).
Proof.
  intros c. split.
  - unfold text. cbn [carried]. rewrite nul_mend. split; [tauto|]. intros H. split; [apply mend_is_utf8|exact H].
  - split; [apply mend_id|apply mend_utf8].
Qed.
Print Assumptions C86_through_json.

(* ------------------------------------------------------------------ *)
(** * What does not hold *)
(** One page of 10 with everything *)
Definition one_page (l : list lrow) : Z -> @page lrow := fun p => mkPage l p (Z.of_nat (length l)) (total_pages (Z.of_nat (length l)) 10) (Z.of_nat (length l)).
Lemma one_page_ok tm l order p : Permutation order l -> StronglySorted later_part order -> (length l <= 10)%nat ->
  (forall r, In r l -> lr_task r = 1%N) -> p = 1 -> get_task_log tm l 1%N "" p 10 (Some (one_page order p)).
Proof.
  intros P S L A ->. unfold get_task_log. cbn zeta. rewrite filter_no_term. rewrite (filter_all (fun x => N.eqb (lr_task x) 1) l) by (intros r Hr; apply N.eqb_eq; auto).
  pose proof (Permutation_length P) as PL. unfold one_page. rewrite PL.
  pose proof (answers_ok later_part l l 1 10 order P S) as Q. cbn zeta in Q. change (Z.to_nat (offset 1 10)) with 0%nat in Q. cbn [skipn] in Q.
  rewrite (firstn_all2 order) in Q by (change (Z.to_nat 10) with 10%nat; lia). rewrite PL in Q. apply Q. vm_compute. discriminate.
Qed.
Definition arrive (p : lpart) : arrival := mkArrival p true 0.
(** "é" (195, 169) written in one call after "a"; and the same two bytes in two calls with a tick in between *)
Definition e_acute : bytes := ["195"; "169"]%char.
(** A character whose bytes are written by two calls can be cut in two by a tick.  The log is text, and yet: with the
    in-memory broker both parts are refused and all of the log is lost; with RabbitMQ two U+FFFD are read instead. *)
Theorem C86_cut_character_refuted : exists tr s, sruns ship0 tr s /\ sh_q s = [] /\ sh_buf s = [] /\ text (written tr) /\ delivered tr = parts tr /\
  forall b, let table := handle_all (map (fun x => arrive (carry b (published_part 1%N x))) (parts tr)) [] in
    flat_map (fun r => unstr (lr_contents r)) table = match b with InMemory => [] | RabbitMQ => fffd ++ fffd end.
Proof.
  exists [SWrite ["195"%char]; SShip 1 ["195"%char] true; SWrite ["169"%char]; SShip 2 ["169"%char] true], (mkShip [] [] 2).
  split.
  { change [SWrite ["195"%char]; SShip 1 ["195"%char] true; SWrite ["169"%char]; SShip 2 ["169"%char] true] with
      ((((((([] ++ [SWrite ["195"%char]]) ++ []) ++ [SShip 1 ["195"%char] true]) ++ [SWrite ["169"%char]]) ++ []) ++ [SShip 2 ["169"%char] true])).
    eapply sr_step; [eapply sr_step; [eapply sr_step; [eapply sr_step; [eapply sr_step; [eapply sr_step; [apply sr_nil|]|]|]|]|]|].
    - apply (st_write ship0). cbn. unfold q_cap. lia.
    - eapply st_take. reflexivity.
    - apply (st_tick (mkShip [] ["195"%char] 0)). cbn. lia.
    - eapply st_write. cbn. unfold q_cap. lia.
    - eapply st_take. reflexivity.
    - apply (st_tick (mkShip [] ["169"%char] 1)). cbn. lia. }
  split; [reflexivity|]. split; [reflexivity|]. split; [split; [reflexivity|intros [H|[H|[]]]; discriminate]|]. split; [reflexivity|].
  intros [|]; vm_compute; reflexivity.
Qed.
Print Assumptions C86_cut_character_refuted.

(** A part delivered twice (RabbitMQ redelivers what was not acknowledged; nothing in the table tells the copies apart) is
    read twice; and a task that a second worker runs again numbers its parts from 1 again, so its log is mixed with the first
    run's, part by part. *)
Theorem C86_second_delivery_refuted : forall tm c, text c -> exists get,
  (forall p, 1 <= p <= 1 -> get_task_log tm (handle_all [arrive (mkLpart (Some 1%N) 1 c); arrive (mkLpart (Some 1%N) 1 c)] []) 1%N "" p 10 (Some (get p))) /\
  read_log get 1 = c ++ c.
Proof.
  intros tm c T. apply is_text_spec in T.
  assert (E : handle_all [arrive (mkLpart (Some 1%N) 1 c); arrive (mkLpart (Some 1%N) 1 c)] [] = [mkLrow 1%N 1 0 (str c); mkLrow 1%N 1 0 (str c)]).
  { cbn [handle_all arrive ar_present ar_now ar_part]. unfold handle, create_part. cbn [lp_task lp_number lp_contents]. rewrite T. reflexivity. }
  rewrite E. exists (one_page [mkLrow 1%N 1 0 (str c); mkLrow 1%N 1 0 (str c)]). split.
  - intros p Hp. apply one_page_ok; [apply Permutation_refl| |cbn; lia|cbn; intros r [<-|[<-|[]]]; reflexivity|lia].
    repeat constructor; unfold later_part; cbn; lia.
  - change (unstr (str c) ++ unstr (str c) ++ [] = c ++ c). now rewrite unstr_str, app_nil_r.
Qed.
Print Assumptions C86_second_delivery_refuted.
Theorem C86_second_run_refuted : forall tm a1 a2 b1 b2, text a1 -> text a2 -> text b1 -> text b2 -> exists get,
  (* the first run ships a1, a2; the second run b1, b2 *)
  (forall p, 1 <= p <= 1 -> get_task_log tm (handle_all (map arrive [mkLpart (Some 1%N) 1 a1; mkLpart (Some 1%N) 2 a2; mkLpart (Some 1%N) 1 b1; mkLpart (Some 1%N) 2 b2]) []) 1%N "" p 10 (Some (get p))) /\
  read_log get 1 = a1 ++ b1 ++ a2 ++ b2.
Proof.
  intros tm a1 a2 b1 b2 T1 T2 T3 T4. apply is_text_spec in T1, T2, T3, T4.
  set (r1 := mkLrow 1%N 1 0 (str a1)). set (r2 := mkLrow 1%N 2 0 (str a2)). set (r3 := mkLrow 1%N 1 0 (str b1)). set (r4 := mkLrow 1%N 2 0 (str b2)).
  assert (E : handle_all (map arrive [mkLpart (Some 1%N) 1 a1; mkLpart (Some 1%N) 2 a2; mkLpart (Some 1%N) 1 b1; mkLpart (Some 1%N) 2 b2]) [] = [r1; r2; r3; r4]).
  { cbn [map handle_all arrive ar_present ar_now ar_part]. unfold handle, create_part. cbn [lp_task lp_number lp_contents]. rewrite T1, T2, T3, T4. reflexivity. }
  rewrite E. exists (one_page [r4; r2; r3; r1]). split.
  - intros p Hp. apply one_page_ok; [| |cbn; lia| |lia].
    + apply (Permutation_trans (l' := [r4; r1; r2; r3])); [|exact (Permutation_cons_append [r1; r2; r3] r4)].
      constructor. eapply Permutation_trans; [|apply Permutation_sym, (Permutation_cons_append [r2; r3] r1)]. apply Permutation_refl.
    + repeat constructor; unfold later_part; cbn; lia.
    + intros r [<-|[<-|[<-|[<-|[]]]]]; reflexivity.
  - change (unstr (str a1) ++ unstr (str b1) ++ unstr (str a2) ++ unstr (str b2) ++ [] = a1 ++ b1 ++ a2 ++ b2). now rewrite !unstr_str, app_nil_r.
Qed.
Print Assumptions C86_second_run_refuted.

(* ------------------------------------------------------------------ *)
(** * Non-vacuity *)
(** "aé" in one part and "b" in another; they arrive in the wrong order, with another task's part between them and a message
    without a task; pages of one part each *)
Definition demo_tr : list sevent := [SWrite ("a"%char :: e_acute); SShip 1 ("a"%char :: e_acute) true; SWrite ["b"%char]; SShip 2 ["b"%char] true].
Definition demo_arr : list arrival := map arrive [mkLpart (Some 1%N) 2 ["b"%char]; mkLpart (Some 2%N) 1 ["z"%char]; mkLpart None 1 ["y"%char]; mkLpart (Some 1%N) 1 ("a"%char :: e_acute)].
Example C86_nonvacuous : exists s get, sruns ship0 demo_tr s /\ sh_q s = [] /\ sh_buf s = [] /\ (forall n c ok, In (n, c, ok) (parts demo_tr) -> ok = true /\ text c) /\
  (forall b, Permutation (of_task 1%N demo_arr) (map (fun x => carry b (published_part 1%N x)) (delivered demo_tr))) /\
  total_pages (Z.of_nat (length (filter (fun r => N.eqb (lr_task r) 1) (handle_all demo_arr [])))) 1 = 2 /\
  (forall p, 1 <= p <= 2 -> get_task_log (fun _ _ => true) (handle_all demo_arr []) 1%N "" p 1 (Some (get p))) /\
  read_log get 2 = "a"%char :: e_acute ++ ["b"%char] /\ written demo_tr = "a"%char :: e_acute ++ ["b"%char].
Proof.
  exists (mkShip [] [] 2), (fun p => mkPage [if p =? 1 then mkLrow 1%N 2 0 (str ["b"%char]) else mkLrow 1%N 1 0 (str ("a"%char :: e_acute))] p 1 2 2).
  split.
  { change demo_tr with ((((((([] ++ [SWrite ("a"%char :: e_acute)]) ++ []) ++ [SShip 1 ("a"%char :: e_acute) true]) ++ [SWrite ["b"%char]]) ++ []) ++ [SShip 2 ["b"%char] true])).
    eapply sr_step; [eapply sr_step; [eapply sr_step; [eapply sr_step; [eapply sr_step; [eapply sr_step; [apply sr_nil|]|]|]|]|]|].
    - apply (st_write ship0). cbn. unfold q_cap. lia.
    - eapply st_take. reflexivity.
    - apply (st_tick (mkShip [] ("a"%char :: e_acute) 0)). cbn. lia.
    - eapply st_write. cbn. unfold q_cap. lia.
    - eapply st_take. reflexivity.
    - apply (st_tick (mkShip [] ["b"%char] 1)). cbn. lia. }
  split; [reflexivity|]. split; [reflexivity|].
  split; [intros n c ok [H|[H|[]]]; injection H as <- <- <-; split; try reflexivity; split; try reflexivity; cbn; intuition discriminate|].
  split; [intros [|]; vm_compute; apply perm_swap|]. split; [reflexivity|]. split; [|split; reflexivity].
  intros p Hp. unfold get_task_log. cbn zeta. rewrite filter_no_term.
  set (a := mkLrow 1%N 1 0 (str ("a"%char :: e_acute))). set (b := mkLrow 1%N 2 0 (str ["b"%char])).
  change (filter (fun x => (lr_task x =? 1)%N) (handle_all demo_arr [])) with [b; a].
  pose proof (answers_ok later_part [b; a] [b; a] p 1 [b; a] (Permutation_refl _)) as Q. cbn zeta in Q.
  assert (C : p = 1 \/ p = 2) by lia. destruct C as [-> | ->].
  - apply Q; [repeat constructor; unfold later_part; cbn; lia|vm_compute; discriminate].
  - apply Q; [repeat constructor; unfold later_part; cbn; lia|vm_compute; discriminate].
Qed.
