(** C35: secrets at rest.
    internal/encrypt/encrypt.go (Encrypt, Decrypt); datastore/postgres/postgres.go:640-653 (CreateJob), 696-730
    (encryptSecrets, decryptSecrets), 1316-1328 (CreateScheduledJob), 1615-1649 (WithTx);
    datastore/postgres/record.go:348-359 (toJob), 420-431 (toScheduledJob). *)
From Coq Require Import String List Ascii Bool Arith NArith Lia.
Import ListNotations.
Open Scope list_scope.

Definition bytes := list ascii.
Definition str (s : string) : bytes := list_ascii_of_string s.

(* ------------------------------------------------------------------ *)
(** * base64.StdEncoding *)
(** The alphabet of RFC 4648, section 4 *)
Definition alphabet : bytes := str "ABCDEFGHIJKLMNOPQRSTUVWXYZabcdefghijklmnopqrstuvwxyz0123456789+/".
Definition pad : ascii := "="%char.
Definition digit (n : N) : ascii := nth (N.to_nat n) alphabet zero.
Fixpoint index (c : ascii) (l : bytes) : option N :=
  match l with [] => None | x :: l => if Ascii.eqb c x then Some 0%N else option_map N.succ (index c l) end.
Definition undigit (c : ascii) : option N := index c alphabet.

(** encode 24 bits as four digits, 16 as three, 8 as two, and pad *)
Fixpoint b64_encode (l : bytes) : bytes :=
  match l with
  | [] => []
  | [a] => let v := (N_of_ascii a * 65536)%N in
    [digit (v / 262144); digit (v / 4096 mod 64); pad; pad]
  | [a; b] => let v := (N_of_ascii a * 65536 + N_of_ascii b * 256)%N in
    [digit (v / 262144); digit (v / 4096 mod 64); digit (v / 64 mod 64); pad]
  | a :: b :: c :: l => let v := (N_of_ascii a * 65536 + N_of_ascii b * 256 + N_of_ascii c)%N in
    digit (v / 262144) :: digit (v / 4096 mod 64) :: digit (v / 64 mod 64) :: digit (v mod 64) :: b64_encode l
  end.
(** the decoder.  Simplified: Go's decoder also skips line breaks, which [b64_encode] never produces *)
Fixpoint b64_decode (l : bytes) : option bytes :=
  match l with
  | [] => Some []
  | d1 :: d2 :: d3 :: d4 :: l =>
    match undigit d1, undigit d2 with
    | Some x1, Some x2 =>
      if Ascii.eqb d3 pad then
        if Ascii.eqb d4 pad then match l with [] => Some [ascii_of_N (x1 * 4 + x2 / 16)] | _ => None end else None
      else match undigit d3 with None => None | Some x3 =>
        if Ascii.eqb d4 pad then
          match l with [] => Some [ascii_of_N (x1 * 4 + x2 / 16); ascii_of_N (x2 mod 16 * 16 + x3 / 4)] | _ => None end
        else match undigit d4, b64_decode l with
          | Some x4, Some rest => Some (ascii_of_N (x1 * 4 + x2 / 16) :: ascii_of_N (x2 mod 16 * 16 + x3 / 4)
                                        :: ascii_of_N (x3 mod 4 * 64 + x4) :: rest)
          | _, _ => None end
        end
    | _, _ => None end
  | _ => None
  end.

Lemma undigit_digit_all : forallb (fun i => match undigit (digit (N.of_nat i)) with Some k => N.eqb k (N.of_nat i) | None => false end
   && negb (Ascii.eqb (digit (N.of_nat i)) pad)) (seq 0 64) = true.
Proof. vm_compute. reflexivity. Qed.
Lemma undigit_digit : forall x, (x < 64)%N -> undigit (digit x) = Some x.
Proof.
  intros x Hx. pose proof undigit_digit_all as H. rewrite forallb_forall in H.
  specialize (H (N.to_nat x)). rewrite in_seq, N2Nat.id in H. specialize (H ltac:(lia)).
  destruct (undigit (digit x)); cbn in H; [|discriminate]. apply andb_prop in H as [H _]. apply N.eqb_eq in H. now subst.
Qed.
Lemma digit_not_pad : forall x, (x < 64)%N -> Ascii.eqb (digit x) pad = false.
Proof.
  intros x Hx. pose proof undigit_digit_all as H. rewrite forallb_forall in H.
  specialize (H (N.to_nat x)). rewrite in_seq, N2Nat.id in H. specialize (H ltac:(lia)).
  apply andb_prop in H as [_ H]. now apply negb_true_iff in H.
Qed.

Lemma list_ind3 : forall (P : bytes -> Prop), P [] -> (forall a, P [a]) -> (forall a b, P [a; b]) ->
  (forall a b c l, P l -> P (a :: b :: c :: l)) -> forall l, P l.
Proof.
  intros P H0 H1 H2 H3. fix IH 1. intros [|a [|b [|c l]]]; [exact H0|apply H1|apply H2|apply H3, IH].
Qed.

Lemma byte_lt : forall a, (N_of_ascii a < 256)%N.
Proof. apply N_ascii_bounded. Qed.

Lemma digits_split : forall x y z, (x < 256)%N -> (y < 256)%N -> (z < 256)%N ->
  let v := (x * 65536 + y * 256 + z)%N in
  (v / 262144 < 64)%N /\ (v / 4096 mod 64 < 64)%N /\ (v / 64 mod 64 < 64)%N /\ (v mod 64 < 64)%N /\
  (v / 262144 * 4 + v / 4096 mod 64 / 16 = x)%N /\
  (v / 4096 mod 64 mod 16 * 16 + v / 64 mod 64 / 4 = y)%N /\
  (v / 64 mod 64 mod 4 * 64 + v mod 64 = z)%N.
Proof.
  intros x y z Hx Hy Hz v.
  assert (E1 : (v / 262144 = x / 4)%N).
  { symmetry. apply (N.div_unique v 262144 (x / 4) ((x mod 4) * 65536 + y * 256 + z))%N;
    unfold v; pose proof (N.div_mod x 4 ltac:(lia)); pose proof (N.mod_lt x 4 ltac:(lia)); nia. }
  assert (E2 : (v / 4096 mod 64 = x mod 4 * 16 + y / 16)%N).
  { assert (E : (v / 4096 = x * 16 + y / 16)%N).
    { symmetry. apply (N.div_unique v 4096 (x * 16 + y / 16) ((y mod 16) * 256 + z))%N;
      unfold v; pose proof (N.div_mod y 16 ltac:(lia)); pose proof (N.mod_lt y 16 ltac:(lia)); nia. }
    rewrite E. symmetry. apply (N.mod_unique _ 64 (x / 4))%N; pose proof (N.div_mod x 4 ltac:(lia));
    pose proof (N.mod_lt x 4 ltac:(lia)); assert (y / 16 < 16)%N by (apply N.div_lt_upper_bound; lia); nia. }
  assert (E3 : (v / 64 mod 64 = y mod 16 * 4 + z / 64)%N).
  { assert (E : (v / 64 = x * 1024 + y * 4 + z / 64)%N).
    { symmetry. apply (N.div_unique v 64 (x * 1024 + y * 4 + z / 64) (z mod 64))%N;
      unfold v; pose proof (N.div_mod z 64 ltac:(lia)); pose proof (N.mod_lt z 64 ltac:(lia)); nia. }
    rewrite E. symmetry. apply (N.mod_unique _ 64 (x * 16 + y / 16))%N; pose proof (N.div_mod y 16 ltac:(lia));
    pose proof (N.mod_lt y 16 ltac:(lia)); assert (z / 64 < 4)%N by (apply N.div_lt_upper_bound; lia); nia. }
  assert (E4 : (v mod 64 = z mod 64)%N).
  { symmetry. apply (N.mod_unique _ 64 (x * 1024 + y * 4 + z / 64))%N; unfold v; pose proof (N.div_mod z 64 ltac:(lia));
    pose proof (N.mod_lt z 64 ltac:(lia)); nia. }
  rewrite E1, E2, E3, E4.
  pose proof (N.div_mod x 4 ltac:(lia)) as Dx. pose proof (N.mod_lt x 4 ltac:(lia)) as Mx.
  pose proof (N.div_mod y 16 ltac:(lia)) as Dy. pose proof (N.mod_lt y 16 ltac:(lia)) as My.
  pose proof (N.div_mod z 64 ltac:(lia)) as Dz. pose proof (N.mod_lt z 64 ltac:(lia)) as Mz.
  assert (x / 4 < 64)%N by (apply N.div_lt_upper_bound; lia).
  assert (y / 16 < 16)%N by (apply N.div_lt_upper_bound; lia).
  assert (z / 64 < 4)%N by (apply N.div_lt_upper_bound; lia).
  assert (F1 : ((x mod 4 * 16 + y / 16) / 16 = x mod 4)%N).
  { symmetry. apply (N.div_unique _ 16 _ (y / 16))%N; nia. }
  assert (F2 : ((x mod 4 * 16 + y / 16) mod 16 = y / 16)%N).
  { symmetry. apply (N.mod_unique _ 16 (x mod 4) _)%N; nia. }
  assert (F3 : ((y mod 16 * 4 + z / 64) / 4 = y mod 16)%N).
  { symmetry. apply (N.div_unique _ 4 _ (z / 64))%N; nia. }
  assert (F4 : ((y mod 16 * 4 + z / 64) mod 4 = z / 64)%N).
  { symmetry. apply (N.mod_unique _ 4 (y mod 16) _)%N; nia. }
  rewrite F1, F2, F3, F4. repeat split; try nia.
Qed.

Lemma b64_roundtrip : forall l, b64_decode (b64_encode l) = Some l.
Proof.
  induction l as [|a|a b|a b c l IH] using list_ind3; [reflexivity| | |].
  - pose proof (digits_split (N_of_ascii a) 0 0 (byte_lt a) ltac:(lia) ltac:(lia)) as H.
    cbn [b64_encode]. replace (N_of_ascii a * 65536 + 0 * 256 + 0)%N with (N_of_ascii a * 65536)%N in H by lia.
    cbv zeta in H. destruct H as (H1 & H2 & _ & _ & E & _). cbn [b64_decode].
    rewrite !undigit_digit by assumption. rewrite E. cbn [Ascii.eqb pad]. rewrite ascii_N_embedding. reflexivity.
  - pose proof (digits_split (N_of_ascii a) (N_of_ascii b) 0 (byte_lt a) (byte_lt b) ltac:(lia)) as H.
    cbn [b64_encode]. replace (N_of_ascii a * 65536 + N_of_ascii b * 256 + 0)%N with (N_of_ascii a * 65536 + N_of_ascii b * 256)%N in H by lia.
    cbv zeta in H. destruct H as (H1 & H2 & H3 & _ & E & F & _). cbn [b64_decode].
    rewrite !undigit_digit by assumption. rewrite digit_not_pad by assumption. rewrite E, F.
    replace (Ascii.eqb pad pad) with true by reflexivity. rewrite !ascii_N_embedding. reflexivity.
  - pose proof (digits_split (N_of_ascii a) (N_of_ascii b) (N_of_ascii c) (byte_lt a) (byte_lt b) (byte_lt c)) as H.
    cbv zeta in H. destruct H as (H1 & H2 & H3 & H4 & E & F & G). cbn [b64_encode b64_decode].
    rewrite !undigit_digit by assumption. rewrite !digit_not_pad by assumption. rewrite IH, E, F, G, !ascii_N_embedding. reflexivity.
Qed.
Lemma b64_length : forall l : bytes, length l <= length (b64_encode l).
Proof. induction l using list_ind3; cbn; lia. Qed.
Lemma b64_inj : forall l l', b64_encode l = b64_encode l' -> l = l'.
Proof. intros l l' H. apply (f_equal b64_decode) in H. rewrite !b64_roundtrip in H. now injection H. Qed.

(* ------------------------------------------------------------------ *)
(** * The code *)
(** maps: no key twice.  Go visits a map in no particular order; what is built here is again a map with the same keys,
    and an error is returned iff some entry gives one, so the order does not matter. *)
Definition vars := list (string * bytes).
Definition marker : bytes := str "enc:".
Definition hidden : bytes := str "[encrypted]".

Fixpoint has_prefix (p s : bytes) : bool :=
  match p, s with [], _ => true | a :: p, b :: s => Ascii.eqb a b && has_prefix p s | _, _ => false end.
(** strings.TrimPrefix *)
Definition trim_prefix (p s : bytes) : bytes := if has_prefix p s then skipn (length p) s else s.

(** All entries or none *)
Fixpoint each {A B} (f : A -> option B) (l : list A) : option (list B) :=
  match l with
  | [] => Some []
  | x :: l => match f x with None => None | Some y => match each f l with None => None | Some r => Some (y :: r) end end
  end.

Section Cipher.
(** AES-256-GCM: [derive] is SHA-256 of the passphrase (encrypt.go:13-16); [seal key nonce plaintext] is the
    ciphertext followed by the tag; [open key nonce ciphertext] fails when the tag does not match.  These are not
    modelled: what the theorems need of them is stated as a premise ([gcm]) of each theorem. *)
Variable derive : bytes -> bytes.
Variable seal : bytes -> bytes -> bytes -> bytes.
Variable open : bytes -> bytes -> bytes -> option bytes.

(** encrypt.go:18-34 [Encrypt].  [nonce]: the 12 bytes read from rand.Reader, [None] if that fails.  aes.NewCipher and
    cipher.NewGCM do not fail on a 32 byte key. *)
Definition encrypt (nonce : option bytes) (plaintext key : bytes) : option bytes :=
  match nonce with None => None | Some n => Some (b64_encode (n ++ seal (derive key) n plaintext)) end.
Definition NONCE : nat := 12.
(** encrypt.go:36-58 [Decrypt] *)
Definition decrypt (ciphertext key : bytes) : option bytes :=
  match b64_decode ciphertext with
  | None => None
  | Some data => if length data <? NONCE then None
                 else open (derive key) (firstn NONCE data) (skipn NONCE data)
  end.

(** postgres.go:696-709 [encryptSecrets].  [rand k]: what the random source gives while the value under key [k] is
    encrypted. *)
Definition encrypt_secrets (rand : string -> option bytes) (m : vars) (key : option bytes) : option vars :=
  match key with
  | None => Some m
  | Some key => each (fun kv => match encrypt (rand (fst kv)) (snd kv) key with
                                | None => None | Some e => Some (fst kv, marker ++ e) end) m
  end.
(** postgres.go:711-730 [decryptSecrets] *)
Definition decrypt_secrets (m : vars) (key : option bytes) : option vars :=
  each (fun kv => if negb (has_prefix marker (snd kv)) then Some kv
                  else match key with
                       | None => Some (fst kv, hidden)
                       | Some key => match decrypt (trim_prefix marker (snd kv)) key with
                                     | None => None | Some d => Some (fst kv, d) end
                       end) m.

(** The two columns of a row of [jobs] that hold secrets: [secrets] (NULL: the job has none) and the member "secrets"
    of [context].  (jsonb stores any string without a NUL character.) *)
Record row := mkRow { r_secrets : option vars; r_context : vars }.
(** A handle on the store: the key option given to NewPostgresDataStore (postgres.go:70-74) *)
Record handle := mkHandle { h_key : option bytes }.
(** postgres.go:1628-1630: the handle WithTx gives to the function carries only the transaction *)
Definition tx_handle (h : handle) : handle := mkHandle None.
(** postgres.go:587-694 CreateJob, the two columns.  Result: the row inserted, or an error and no row.
    1297-1372 CreateScheduledJob handles its secrets the same way (it has no context). *)
Definition create_job (h : handle) (rand : string -> option bytes) (secrets : option vars) (ctx_secrets : vars) : option row :=
  match secrets with
  | None => Some (mkRow None ctx_secrets)
  | Some m => match encrypt_secrets rand m (h_key h) with None => None | Some e => Some (mkRow (Some e) ctx_secrets) end
  end.
(** record.go:317-395 toJob, the member Secrets of the job read; [None] is an error *)
Definition read_job (h : handle) (r : row) : option (option vars) :=
  match r_secrets r with
  | None => Some None
  | Some e => match decrypt_secrets e (h_key h) with None => None | Some m => Some (Some m) end
  end.

(* ------------------------------------------------------------------ *)
(** * Properties *)
(** What is assumed of AES-GCM and of the random source *)
Record gcm : Prop := {
  open_seal : forall k n p, open k n (seal k n p) = Some p;
  seal_length : forall k n p, length (seal k n p) = length p + 16 }.
Definition rand_ok (rand : string -> option bytes) : Prop := forall k n, rand k = Some n -> length n = NONCE.

Lemma has_prefix_app : forall p s, has_prefix p (p ++ s) = true.
Proof. induction p as [|a p IH]; cbn; [reflexivity|]. intros s. rewrite Ascii.eqb_refl. apply IH. Qed.
Lemma trim_prefix_app : forall p s, trim_prefix p (p ++ s) = s.
Proof. intros p s. unfold trim_prefix. rewrite has_prefix_app. rewrite skipn_app, skipn_all, Nat.sub_diag. reflexivity. Qed.

Lemma decrypt_encrypt : forall n k v c, gcm -> (forall n', n = Some n' -> length n' = NONCE) -> encrypt n v k = Some c -> decrypt c k = Some v.
Proof.
  intros [n|] k v c G Hn H; cbn in H; [|discriminate]. injection H as <-. specialize (Hn n eq_refl).
  unfold decrypt. rewrite b64_roundtrip. rewrite app_length.
  destruct (Nat.ltb_spec (length n + length (seal (derive k) n v)) NONCE) as [Hl|_]; [lia|].
  rewrite firstn_app, skipn_app, <- Hn, firstn_all, skipn_all, Nat.sub_diag. cbn [firstn skipn]. rewrite app_nil_r. apply G.
Qed.

Lemma each_inv : forall A B (f : A -> option B) l r, each f l = Some r -> Forall2 (fun x y => f x = Some y) l r.
Proof.
  intros A B f l. induction l as [|x l IH]; cbn; intros r H.
  - injection H as <-. constructor.
  - destruct (f x) eqn:E; [|discriminate]. destruct (each f l); [|discriminate]. injection H as <-. constructor; auto.
Qed.
Lemma each_intro : forall A B (f : A -> option B) l r, Forall2 (fun x y => f x = Some y) l r -> each f l = Some r.
Proof. intros A B f l r H. induction H; cbn; [reflexivity|]. now rewrite H, IHForall2. Qed.

(** Created and read back with the same key - whatever the values, also ones that look encrypted - the secrets are
    those that were written *)
Theorem C35_reads_back : forall key rand m ctx r,
  gcm -> rand_ok rand -> create_job (mkHandle (Some key)) rand (Some m) ctx = Some r ->
  read_job (mkHandle (Some key)) r = Some (Some m).
Proof.
  intros key rand m ctx r G R H. cbn in H.
  destruct (each _ m) as [e|] eqn:E; [|discriminate]. injection H as <-. cbn.
  apply each_inv in E. unfold decrypt_secrets. erewrite each_intro; [reflexivity|].
  induction E as [|[k v] [k' c] m e H E IH]; constructor; [|exact IH].
  cbn in H |- *. destruct (rand k) as [n|] eqn:Er; cbn in H; [|discriminate]. injection H as <- <-.
  change ("e"%char :: "n"%char :: "c"%char :: ":"%char :: ?x) with (marker ++ x).
  assert (D := decrypt_encrypt (Some n) key v (b64_encode (n ++ seal (derive key) n v)) G).
  rewrite (trim_prefix_app marker). rewrite D; [reflexivity| |reflexivity]. intros n' [= <-]. eapply R; eauto.
Qed.

(** With a key every value in the column is marked, is longer than the value it stands for, and so is not it *)
Theorem C35_column_is_not_the_plaintext : forall key rand m ctx r,
  gcm -> rand_ok rand -> create_job (mkHandle (Some key)) rand (Some m) ctx = Some r ->
  exists e, r_secrets r = Some e /\ map fst e = map fst m /\
    forall i k v, nth_error m i = Some (k, v) -> exists c, nth_error e i = Some (k, c) /\ has_prefix marker c = true /\ length v < length c /\ c <> v.
Proof.
  intros key rand m ctx r G R H. cbn in H.
  destruct (each _ m) as [e|] eqn:E; [|discriminate]. injection H as <-. cbn.
  exists e. apply each_inv in E. split; [reflexivity|].
  assert (L : forall i k v, nth_error m i = Some (k, v) -> exists c, nth_error e i = Some (k, c) /\ has_prefix marker c = true /\ length v < length c).
  { intros i. revert m e E. induction i as [|i IH]; intros m e E k v H; destruct E as [|[k0 v0] y m e H0 E]; try discriminate.
    - cbn in H. injection H as -> ->. cbn in H0. destruct (rand k) as [n|] eqn:Er; cbn in H0; [|discriminate]. injection H0 as <-.
      eexists. split; [reflexivity|]. split; [reflexivity|]. cbn [length].
      pose proof (b64_length (n ++ seal (derive key) n v)) as L. rewrite app_length, (seal_length G) in L. lia.
    - apply (IH m e E k v H). }
  split.
  - clear L. induction E as [|[k v] y m e H E IH]; cbn; [reflexivity|]. f_equal; [|exact IH].
    cbn in H. destruct (encrypt _ _ _); [|discriminate]. injection H as <-. reflexivity.
  - intros i k v H. destruct (L i k v H) as (c & A & B & C). exists c. repeat split; auto. intros ->. lia.
Qed.

(** Two values encrypted with different nonces have different columns, even when the values are equal: the column does
    not show that two jobs have the same secret *)
Theorem C35_equal_values_are_not_recognisable : forall key n n' v v' c c',
  length n = NONCE -> length n' = NONCE -> n <> n' ->
  encrypt (Some n) v key = Some c -> encrypt (Some n') v' key = Some c' -> c <> c'.
Proof.
  intros key n n' v v' c c' L L' Hn [= <-] [= <-] H. apply b64_inj in H. apply Hn.
  assert (F : forall (x y : bytes), length x = NONCE -> firstn NONCE (x ++ y) = x).
  { intros x y Lx. rewrite <- Lx, firstn_app, firstn_all, Nat.sub_diag. apply app_nil_r. }
  apply (f_equal (firstn NONCE)) in H. now rewrite !F in H by assumption.
Qed.

(** A reader without the key sees, for every key of the map, the same text whatever the value *)
Theorem C35_without_key_nothing_is_read : forall key rand m ctx r,
  create_job (mkHandle (Some key)) rand (Some m) ctx = Some r ->
  read_job (mkHandle None) r = Some (Some (map (fun kv => (fst kv, hidden)) m)).
Proof.
  intros key rand m ctx r H. cbn in H.
  destruct (each _ m) as [e|] eqn:E; [|discriminate]. injection H as <-. cbn.
  apply each_inv in E. unfold decrypt_secrets. erewrite each_intro; [reflexivity|].
  induction E as [|[k v] [k' c] m e H E IH]; constructor; [|exact IH].
  cbn in H |- *. destruct (rand k) as [n|]; cbn in H; [|discriminate]. injection H as <- <-. reflexivity.
Qed.

(** If the random source fails for one of the values, nothing is stored at all - in particular not the plaintext *)
Theorem C35_fails_closed : forall key rand m ctx k v,
  In (k, v) m -> rand k = None -> create_job (mkHandle (Some key)) rand (Some m) ctx = None.
Proof.
  intros key rand m ctx k v Hin Hr. cbn.
  destruct (each _ m) as [e|] eqn:E; [|reflexivity]. exfalso. apply each_inv in E.
  induction E as [|x y m e H E IH]; [destruct Hin|]. destruct Hin as [->|Hin]; [|auto].
  cbn in H. rewrite Hr in H. discriminate.
Qed.

(** A reader with another key, whom GCM refuses, gets an error rather than some other value: the job cannot be read *)
Theorem C35_wrong_key_is_refused : forall key key' rand m ctx r k v,
  rand_ok rand -> create_job (mkHandle (Some key)) rand (Some m) ctx = Some r -> In (k, v) m ->
  (forall n, open (derive key') n (seal (derive key) n v) = None) ->
  read_job (mkHandle (Some key')) r = None.
Proof.
  intros key key' rand m ctx r k v R H Hin Ho. cbn in H.
  destruct (each _ m) as [e|] eqn:E; [|discriminate]. injection H as <-. cbn.
  destruct (decrypt_secrets e (Some key')) as [d|] eqn:D; [|reflexivity]. exfalso.
  apply each_inv in E. unfold decrypt_secrets in D. apply each_inv in D. revert d D.
  induction E as [|x y m e H E IH]; [destruct Hin|]. intros d D.
  inversion D as [|x1 y1 l1 l2 D1 D2 Ea Eb]; subst. destruct Hin as [->|Hin]; [|exact (IH Hin _ D2)].
  cbn in H. destruct (rand k) as [n|] eqn:Er; cbn in H; [|discriminate]. injection H as <-. cbn in D1.
  unfold trim_prefix in D1. cbn in D1. unfold decrypt in D1. rewrite b64_roundtrip in D1.
  pose proof (R _ _ Er) as L. rewrite app_length in D1.
  destruct (Nat.ltb_spec (length n + length (seal (derive key) n v)) NONCE) as [Hl|_]; [lia|].
  rewrite firstn_app, skipn_app, <- L, firstn_all, skipn_all, Nat.sub_diag in D1. cbn [firstn skipn] in D1. rewrite app_nil_r in D1.
  cbn [app] in D1. rewrite Ho in D1. discriminate.
Qed.

(** Turning encryption on later: secrets stored before, without a key, are still read as they were, if none of them
    starts with the marker *)
Theorem C35_older_plaintext_still_reads : forall rand m ctx r h,
  Forall (fun kv => has_prefix marker (snd kv) = false) m ->
  create_job (mkHandle None) rand (Some m) ctx = Some r -> read_job h r = Some (Some m).
Proof.
  intros rand m ctx r h F H. cbn in H. injection H as <-. cbn. unfold decrypt_secrets.
  erewrite each_intro; [reflexivity|]. induction F as [|x m Hx F IH]; constructor; [|exact IH]. now rewrite Hx.
Qed.
(** ... and a job without secrets is read as one *)
Theorem C35_no_secrets : forall h h' rand ctx, exists r, create_job h rand None ctx = Some r /\ read_job h' r = Some None.
Proof. intros. eexists. split; reflexivity. Qed.

(** Refuted: the same secrets are in the column [context] in plaintext, key or not (api.go and the scheduler put the
    job's secrets in its context, job.go:132-137) *)
Theorem C35_context_is_plaintext_refuted : forall h rand m r, create_job h rand (Some m) m = Some r -> r_context r = m.
Proof. intros h rand m r H. cbn in H. destruct (encrypt_secrets rand m (h_key h)); [|discriminate]. now injection H as <-. Qed.
(** Refuted: through the handle of a transaction nothing is encrypted, and what was encrypted is not readable *)
Theorem C35_inside_a_transaction_refuted : forall h rand m ctx,
  create_job (tx_handle h) rand (Some m) ctx = Some (mkRow (Some m) ctx).
Proof. reflexivity. Qed.
Theorem C35_read_in_a_transaction_refuted : forall key rand m ctx r,
  create_job (mkHandle (Some key)) rand (Some m) ctx = Some r ->
  read_job (tx_handle (mkHandle (Some key))) r = Some (Some (map (fun kv => (fst kv, hidden)) m)).
Proof. intros. eapply C35_without_key_nothing_is_read; eauto. Qed.
(** Refuted: without a key, a secret that starts with "enc:" does not read back; and when a key is configured
    afterwards, a job holding one (here "enc:x!") cannot be read at all *)
Theorem C35_keyless_marker_refuted : forall rand, exists m r,
  create_job (mkHandle None) rand (Some m) [] = Some r /\ read_job (mkHandle None) r <> Some (Some m) /\
  forall key, read_job (mkHandle (Some key)) r = None.
Proof.
  intros rand. exists [("K"%string, str "enc:x!")]. eexists. split; [reflexivity|]. split; [vm_compute; discriminate|reflexivity].
Qed.
End Cipher.

(* ------------------------------------------------------------------ *)
(** * The premises can be met: a toy cipher (plaintext plus sixteen bytes of key as the tag) *)
Definition toy_tag (k : bytes) : bytes := firstn 16 (k ++ repeat zero 16).
Definition toy_seal (k n p : bytes) : bytes := toy_tag k ++ p.
Definition toy_open (k n c : bytes) : option bytes :=
  if list_eq_dec ascii_dec (firstn 16 c) (toy_tag k) then Some (skipn 16 c) else None.
Lemma toy_tag_length : forall k, length (toy_tag k) = 16.
Proof. intros k. unfold toy_tag. rewrite firstn_length, app_length, repeat_length. lia. Qed.
Example toy_gcm : gcm toy_seal toy_open.
Proof.
  constructor; intros k n p; unfold toy_open, toy_seal.
  - rewrite firstn_app, skipn_app, toy_tag_length, Nat.sub_diag.
    change (firstn 0 p) with (@nil ascii). change (skipn 0 p) with p.
    rewrite app_nil_r, firstn_all2, skipn_all2 by (rewrite toy_tag_length; lia). destruct (list_eq_dec _ _ _); [reflexivity|contradiction].
  - rewrite app_length, toy_tag_length. lia.
Qed.
Definition toy_rand (k : string) : option bytes := Some (repeat "n"%char 12).
Example toy_rand_ok : rand_ok toy_rand.
Proof. intros k n [= <-]. reflexivity. Qed.
Definition toy_job : vars := [("DB"%string, str "hunter2"); ("TOKEN"%string, str "enc:tricky")].
(** the premises of the theorems hold of a job with two secrets, one of which looks encrypted *)
Example C35_case : exists r, create_job (fun k => k) toy_seal (mkHandle (Some (str "pass"))) toy_rand (Some toy_job) [] = Some r /\
  read_job (fun k => k) toy_open (mkHandle (Some (str "pass"))) r = Some (Some toy_job) /\
  read_job (fun k => k) toy_open (mkHandle (Some (str "other"))) r = None /\
  (forall n, toy_open (str "other") n (toy_seal (str "pass") n (str "hunter2")) = None) /\
  create_job (fun k => k) toy_seal (mkHandle (Some (str "pass"))) (fun _ => None) (Some toy_job) [] = None.
Proof. eexists. split; [vm_compute; reflexivity|]. repeat split; vm_compute; reflexivity. Qed.
Example C35_case_older : Forall (fun kv => has_prefix marker (snd kv) = false) [("DB"%string, str "hunter2")].
Proof. repeat constructor. Qed.
Example C35_case_base64 : b64_encode (str "Tork!") = str "VG9yayE=" /\ b64_decode (str "VG9yayE=") = Some (str "Tork!").
Proof. split; vm_compute; reflexivity. Qed.

Print Assumptions C35_reads_back.
Print Assumptions C35_column_is_not_the_plaintext.
Print Assumptions C35_equal_values_are_not_recognisable.
Print Assumptions C35_without_key_nothing_is_read.
Print Assumptions C35_fails_closed.
Print Assumptions C35_wrong_key_is_refused.
Print Assumptions C35_older_plaintext_still_reads.
Print Assumptions C35_no_secrets.
Print Assumptions C35_context_is_plaintext_refuted.
Print Assumptions C35_inside_a_transaction_refuted.
Print Assumptions C35_read_in_a_transaction_refuted.
Print Assumptions C35_keyless_marker_refuted.
