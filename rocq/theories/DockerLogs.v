(** C75: the log and the outcome of a container.  runtime/docker/docker.go:334-352 (dockerLogsReader.Read),
    runtime/docker/tcontainer.go:245-322 (Wait), 456-479 (readOutput); io.Copy and io.ReadAll of the Go library. *)
From Verif Require Import Types.
Open Scope list_scope.
Open Scope nat_scope.

(* ------------------------------------------------------------------ *)
(** * Model *)
Notation byte := N (only parsing).
(** The response body of ContainerLogs: what is left to read, and how many bytes the next reads give at most (a read gives
    at least one byte if there is one).  [r_lims = []]: every read gives what is asked for, as far as there is something. *)
Record body := mkBody { r_rest : list byte; r_lims : list nat }.
(** Read(p) with len(p) = [k]: the bytes, whether io.EOF is returned, the body afterwards.  At the end io.EOF is returned
    even for an empty [p] (net/http's body keeps its error). *)
Definition rread (k : nat) (r : body) : list byte * bool * body :=
  match r_rest r with
  | [] => ([], true, r)
  | _ =>
      match k with
      | O => ([], false, r)
      | _ => let n := match r_lims r with [] => k | h :: _ => Nat.min k (Nat.max 1 h) end in
             (firstn n (r_rest r), false, mkBody (skipn n (r_rest r)) (tl (r_lims r)))
      end
  end.
(** binary.BigEndian.Uint32 of four bytes *)
Definition uint32 (l : list byte) : N :=
  match l with [a; b; c; d] => (((a * 256 + b) * 256 + c) * 256 + d)%N | _ => 0%N end.
Definition zeros (n : nat) : list byte := repeat 0%N n.

(** docker.go:334-352: Read(p) with len(p) = [k].  The header and the data are read with one Read each; what a Read did not
    fill stays zero; what does not fit into [p] is dropped. *)
Definition docker_read (k : nat) (r : body) : list byte * bool * body :=
  let '(h, _, r1) := rread 8 r in
  let hdr := h ++ zeros (8 - length h) in
  let count := N.to_nat (uint32 (firstn 4 (skipn 4 hdr))) in
  let '(d, e, r2) := rread count r1 in
  let data := d ++ zeros (count - length d) in
  (firstn k data, e, r2).

(** io.Copy: a buffer of 32 KiB, until io.EOF (tcontainer.go:270-275) *)
Definition copy_buffer : nat := 32 * 1024.
Inductive io_copy : body -> list byte -> Prop :=
| ic_end r b r' : docker_read copy_buffer r = (b, true, r') -> io_copy r b
| ic_more r b r' out : docker_read copy_buffer r = (b, false, r') -> io_copy r' out -> io_copy r (b ++ out).

(** io.ReadAll (tcontainer.go:297): [len] bytes so far in a slice of capacity [cap]; a full slice grows ([grow]: to whatever
    append chooses) *)
Section ReadAll.
Variable grow : nat -> nat.
Inductive read_all : nat -> list byte -> body -> list byte -> Prop :=
| ra_end cap acc r b r' : docker_read (cap - length acc) r = (b, true, r') -> read_all cap acc r (acc ++ b)
| ra_more cap acc r b r' out : docker_read (cap - length acc) r = (b, false, r') ->
    read_all (if Nat.eqb (length (acc ++ b)) cap then grow cap else cap) (acc ++ b) r' out -> read_all cap acc r out.
End ReadAll.

(** a file system node as CopyFromContainer archives it: the archive of a file has one entry, that of a directory one for
    itself and those of what it contains *)
Inductive fnode := FFile (contents : list byte) | FDir (l : list fnode).
Fixpoint tar_of (f : fnode) : list (list byte) :=
  match f with FFile c => [c] | FDir l => [] :: flat_map tar_of l end.
(** tcontainer.go:456-479: the contents of all entries (an error while reading is the engine's) *)
Definition read_output (a : string + fnode) : string + list byte :=
  match a with inl e => inl e | inr f => inr (concat (tar_of f)) end.

(** what the engine reports at the end of the process *)
Inductive exit_ := Exited (code : Z) | WaitError (e : string).
Inductive wait_result :=
| WOk (out : list byte)                       (* the result *)
| WError (e : string)                         (* an error of the engine *)
| WExit (code : Z) (tail : option (list byte)).   (* "exit code c" or "exit code c: tail" *)
(** tcontainer.go:245-322.  [logs]: does ContainerLogs fail; [tail]: the text of the last ten lines, if it could be had;
    [out]: /tork/stdout *)
Definition wait (logs : option string) (x : exit_) (tail : option (list byte)) (out : string + fnode) : wait_result :=
  match logs with
  | Some e => WError e
  | None =>
      match x with
      | WaitError e => WError e
      | Exited c => if Z.eqb c 0 then match read_output out with inl e => WError e | inr o => WOk o end
                    else WExit c tail
      end
  end.

(* ------------------------------------------------------------------ *)
(** * Specification *)
(** The engine's stream format: frames of a stream number (1 stdout, 2 stderr), three zero bytes, the length in four
    bytes, most significant first, and the payload. *)
Record frame := mkFrame { f_stream : N; f_payload : list byte }.
Definition be32 (n : N) : list byte := [(n / 16777216) mod 256; (n / 65536) mod 256; (n / 256) mod 256; n mod 256]%N.
Definition encode (f : frame) : list byte :=
  f_stream f :: 0%N :: 0%N :: 0%N :: be32 (N.of_nat (length (f_payload f))) ++ f_payload f.
Definition stream (fs : list frame) : list byte := flat_map encode fs.
Definition small (n : nat) (f : frame) : Prop := (length (f_payload f) <= n) /\ (N.of_nat (length (f_payload f)) < 2 ^ 32)%N.
(** the text of a log: the payloads in order *)
Definition text (fs : list frame) : list byte := flat_map f_payload fs.
(** a body that answers every read in full *)
Definition whole (fs : list frame) : body := mkBody (stream fs) [].

(* ------------------------------------------------------------------ *)
(** * Proofs *)
Lemma copy_buffer_512 : 512 <= copy_buffer.
Proof. apply Nat.leb_le. vm_compute. reflexivity. Qed.
Lemma copy_buffer_u32 : (N.of_nat (S copy_buffer) < 2 ^ 32)%N.
Proof. vm_compute. reflexivity. Qed.
Opaque copy_buffer.
Lemma uint32_be32 n : (n < 2 ^ 32)%N -> uint32 (be32 n) = n.
Proof.
  intros H. unfold be32, uint32. change (2 ^ 32)%N with 4294967296%N in H.
  assert (E1 : (n / 256 / 256 = n / 65536)%N) by (rewrite N.div_div by discriminate; reflexivity).
  assert (E2 : (n / 65536 / 256 = n / 16777216)%N) by (rewrite N.div_div by discriminate; reflexivity).
  assert (E3 : ((n / 16777216) mod 256 = n / 16777216)%N).
  { apply N.mod_small. apply N.div_lt_upper_bound; [discriminate|]. lia. }
  rewrite E3.
  pose proof (N.div_mod (n / 65536) 256 ltac:(discriminate)) as D1. rewrite E2 in D1.
  pose proof (N.div_mod (n / 256) 256 ltac:(discriminate)) as D2. rewrite E1 in D2.
  pose proof (N.div_mod n 256 ltac:(discriminate)) as D3.
  lia.
Qed.

Lemma docker_read_end k l : docker_read k (mkBody [] l) = ([], true, mkBody [] l).
Proof. unfold docker_read. cbn. destruct k; reflexivity. Qed.

Lemma firstn_exact {A} (a b : list A) : firstn (length a) (a ++ b) = a.
Proof. rewrite firstn_app, Nat.sub_diag, firstn_all. cbn. apply app_nil_r. Qed.
Lemma skipn_exact {A} (a b : list A) : skipn (length a) (a ++ b) = b.
Proof. rewrite skipn_app, Nat.sub_diag, skipn_all. reflexivity. Qed.

(** one frame; a frame without a payload at the very end of the stream is answered with io.EOF at once *)
Lemma docker_read_frame k f fs : (N.of_nat (length (f_payload f)) < 2 ^ 32)%N ->
  exists e, docker_read k (whole (f :: fs)) = (firstn k (f_payload f), e, whole fs) /\ (e = true -> fs = []).
Proof.
  intros H. unfold whole, docker_read, stream.
  change (flat_map encode (f :: fs)) with (encode f ++ flat_map encode fs).
  set (rest := flat_map encode fs). unfold encode, rread at 1. cbn [app r_rest r_lims].
  unfold be32. cbn [app firstn skipn]. cbn [length Nat.sub zeros repeat app tl firstn skipn].
  pose proof (uint32_be32 _ H) as U. unfold be32 in U. rewrite U, Nat2N.id. clear U.
  unfold rread. cbn [r_rest r_lims tl].
  destruct (f_payload f ++ rest) as [|b0 bs] eqn:Er.
  - apply app_eq_nil in Er as [E1 E2]. rewrite E1. cbn [length Nat.sub zeros repeat app].
    exists true. split; [rewrite E2; reflexivity|]. intros _. destruct fs as [|f' fs']; [reflexivity|].
    unfold rest in E2. cbn in E2. discriminate.
  - destruct (length (f_payload f)) as [|n] eqn:El.
    + exists false. split; [|discriminate]. destruct (f_payload f); [|discriminate]. cbn in Er. rewrite Er.
      cbn [Nat.sub zeros repeat app]. reflexivity.
    + exists false. split; [|discriminate]. rewrite <- Er, <- El.
      assert (F1 : firstn (length (f_payload f)) (f_payload f ++ rest) = f_payload f) by apply firstn_exact.
      assert (F2 : skipn (length (f_payload f)) (f_payload f ++ rest) = rest) by apply skipn_exact.
      rewrite F1, F2, Nat.sub_diag. cbn [zeros repeat].
      rewrite app_nil_r. reflexivity.
Qed.

(** C75: everything the container writes reaches the log, in order and exactly once, if the connection answers every read
    in full and no frame is longer than the copy buffer. *)
Theorem C75_log_complete : forall fs, Forall (small copy_buffer) fs ->
  io_copy (whole fs) (text fs) /\ (forall out, io_copy (whole fs) out -> out = text fs).
Proof.
  induction fs as [|f fs IH]; intros H.
  - assert (E : docker_read copy_buffer (whole []) = ([], true, whole [])) by apply docker_read_end.
    split; [exact (ic_end _ _ _ E)|]. intros out Ho. inversion Ho as [? b r' E'|? b r' out' E' _]; subst.
    + rewrite E in E'. injection E' as <- <-. reflexivity.
    + rewrite E in E'. discriminate.
  - inversion H as [|? ? [Hs Hl] Hr]; subst. destruct (IH Hr) as [IH1 IH2].
    destruct (docker_read_frame copy_buffer f fs Hl) as (e & E & He).
    assert (Ef : firstn copy_buffer (f_payload f) = f_payload f) by (apply firstn_all2; exact Hs).
    rewrite Ef in E. change (text (f :: fs)) with (f_payload f ++ text fs). destruct e.
    + rewrite (He eq_refl) in *. cbn [text flat_map]. rewrite app_nil_r. split; [exact (ic_end _ _ _ E)|].
      intros out Ho. inversion Ho as [? b r' E'|? b r' out' E' _]; subst; rewrite E in E'; [|discriminate].
      injection E' as <- <-. reflexivity.
    + split; [exact (ic_more _ _ _ _ E IH1)|].
      intros out Ho. inversion Ho as [? b r' E'|? b r' out' E' Hc]; subst; rewrite E in E'; [discriminate|].
      injection E' as <- <-. rewrite (IH2 _ Hc). reflexivity.
Qed.
Print Assumptions C75_log_complete.

(** frame by frame, what arrives *)
Definition cut (n : nat) (fs : list frame) : list byte := flat_map (fun f => firstn n (f_payload f)) fs.
(** C75: whatever the frames are, the log consists of the payloads in order, each cut at the size of the buffer: nothing is
    invented, reordered or mixed. *)
Theorem C75_log_cut : forall fs, Forall (fun f => N.of_nat (length (f_payload f)) < 2 ^ 32)%N fs ->
  io_copy (whole fs) (cut copy_buffer fs) /\ (forall out, io_copy (whole fs) out -> out = cut copy_buffer fs).
Proof.
  induction fs as [|f fs IH]; intros H.
  - assert (E : docker_read copy_buffer (whole []) = ([], true, whole [])) by apply docker_read_end.
    split; [exact (ic_end _ _ _ E)|]. intros out Ho. inversion Ho as [? b r' E'|? b r' out' E' _]; subst.
    + rewrite E in E'. injection E' as <- <-. reflexivity.
    + rewrite E in E'. discriminate.
  - inversion H as [|? ? Hl Hr]; subst. destruct (IH Hr) as [IH1 IH2].
    destruct (docker_read_frame copy_buffer f fs Hl) as (e & E & He).
    change (cut copy_buffer (f :: fs)) with (firstn copy_buffer (f_payload f) ++ cut copy_buffer fs). destruct e.
    + rewrite (He eq_refl) in *. cbn [cut flat_map]. rewrite app_nil_r. split; [exact (ic_end _ _ _ E)|].
      intros out Ho. inversion Ho as [? b r' E'|? b r' out' E' _]; subst; rewrite E in E'; [|discriminate].
      injection E' as <- <-. reflexivity.
    + split; [exact (ic_more _ _ _ _ E IH1)|].
      intros out Ho. inversion Ho as [? b r' E'|? b r' out' E' Hc]; subst; rewrite E in E'; [discriminate|].
      injection E' as <- <-. rewrite (IH2 _ Hc). reflexivity.
Qed.
Print Assumptions C75_log_cut.

(** C75: the text of a failed task's error is the whole tail of its log if that is at most 512 bytes long. *)
Theorem C75_error_text : forall grow fs, Forall (fun f => N.of_nat (length (f_payload f)) < 2 ^ 32)%N fs ->
  (forall c, c < grow c) -> length (text fs) <= 512 ->
  read_all grow 512 [] (whole fs) (text fs) /\ (forall out, read_all grow 512 [] (whole fs) out -> out = text fs).
Proof.
  intros grow fs Hf Hg Hl.
  assert (G : forall fs cap acc, Forall (fun f => N.of_nat (length (f_payload f)) < 2 ^ 32)%N fs ->
    length acc + length (text fs) <= cap ->
    read_all grow cap acc (whole fs) (acc ++ text fs) /\ (forall out, read_all grow cap acc (whole fs) out -> out = acc ++ text fs)).
  { clear fs Hf Hl. induction fs as [|f fs IH]; intros cap acc Hf Hl.
    - assert (E : docker_read (cap - length acc) (whole []) = ([], true, whole [])) by apply docker_read_end.
      split; [exact (ra_end grow _ _ _ _ _ E)|]. intros out Ho.
      inversion Ho as [? ? ? b r' E'|? ? ? b r' out' E' _]; subst; rewrite E in E'; [|discriminate].
      injection E' as <- <-. reflexivity.
    - inversion Hf as [|? ? Hlen Hr]; subst. change (text (f :: fs)) with (f_payload f ++ text fs) in *.
      rewrite app_length in Hl.
      destruct (docker_read_frame (cap - length acc) f fs Hlen) as (e & E & He).
      rewrite (firstn_all2 (f_payload f)) in E by lia.
      assert (Hc : length (acc ++ f_payload f) + length (text fs) <=
        (if Nat.eqb (length (acc ++ f_payload f)) cap then grow cap else cap)).
      { rewrite app_length. specialize (Hg cap). destruct (Nat.eqb _ cap); lia. }
      destruct (IH _ _ Hr Hc) as [IH1 IH2]. rewrite app_assoc. destruct e.
      + rewrite (He eq_refl) in *. cbn [text flat_map] in *. rewrite app_nil_r. split; [exact (ra_end grow _ _ _ _ _ E)|].
        intros out Ho. inversion Ho as [? ? ? b r' E'|? ? ? b r' out' E' _]; subst; rewrite E in E'; [|discriminate].
        injection E' as <- <-. reflexivity.
      + split; [exact (ra_more grow _ _ _ _ _ _ E IH1)|].
        intros out Ho. inversion Ho as [? ? ? b r' E'|? ? ? b r' out' E' Hcc]; subst; rewrite E in E'; [discriminate|].
        injection E' as <- <-. exact (IH2 _ Hcc). }
  destruct (G fs 512 [] Hf Hl) as [G1 G2]. split; [exact G1|exact G2].
Qed.
Print Assumptions C75_error_text.

(** [a] is a part of each payload's beginning, in order *)
Inductive beginnings : list frame -> list byte -> Prop :=
| bg_nil : beginnings [] []
| bg_cons f fs n out : beginnings fs out -> beginnings (f :: fs) (firstn n (f_payload f) ++ out).
(** C75: in every case that text is made of beginnings of the payloads, in order. *)
Theorem C75_error_text_beginnings : forall grow fs out, Forall (fun f => N.of_nat (length (f_payload f)) < 2 ^ 32)%N fs ->
  read_all grow 512 [] (whole fs) out -> beginnings fs out.
Proof.
  intros grow.
  assert (G : forall fs cap acc out, Forall (fun f => N.of_nat (length (f_payload f)) < 2 ^ 32)%N fs ->
    read_all grow cap acc (whole fs) out -> exists o, out = acc ++ o /\ beginnings fs o).
  { induction fs as [|f fs IH]; intros cap acc out Hf Ho.
    - assert (E : docker_read (cap - length acc) (whole []) = ([], true, whole [])) by apply docker_read_end.
      inversion Ho as [? ? ? b r' E'|? ? ? b r' out' E' _]; subst; rewrite E in E'; [|discriminate].
      injection E' as <- <-. exists []. split; [reflexivity|constructor].
    - inversion Hf as [|? ? Hlen Hr]; subst.
      destruct (docker_read_frame (cap - length acc) f fs Hlen) as (e & E & He).
      inversion Ho as [? ? ? b r' E'|? ? ? b r' out' E' Hcc]; subst; rewrite E in E'.
      + injection E' as <- -> _. rewrite (He eq_refl).
        exists (firstn (cap - length acc) (f_payload f) ++ []). split; [rewrite app_nil_r; reflexivity|].
        constructor. constructor.
      + injection E' as <- _ <-. destruct (IH _ _ _ Hr Hcc) as (o & -> & Hb).
        exists (firstn (cap - length acc) (f_payload f) ++ o). split; [rewrite app_assoc; reflexivity|].
        constructor. exact Hb. }
  intros fs out Hf Ho. destruct (G fs 512 [] out Hf Ho) as (o & -> & Hb). exact Hb.
Qed.
Print Assumptions C75_error_text_beginnings.

(** C75: a task has a result exactly if its process ended with status 0, and then it is what it wrote to the file named by
    TORK_OUTPUT, byte for byte; a process that ended with another status always makes the task fail, naming the status. *)
Theorem C75_result : forall x tail out,
  (forall o, wait None x tail out = WOk o <-> x = Exited 0 /\ exists f, out = inr f /\ o = concat (tar_of f)) /\
  (forall c, out = inr (FFile c) -> x = Exited 0 -> wait None x tail out = WOk c) /\
  (forall c, x = Exited c -> c <> 0%Z -> wait None x tail out = WExit c tail) /\
  (forall e, x = WaitError e -> wait None x tail out = WError e) /\
  (forall e, wait (Some e) x tail out = WError e).
Proof.
  intros x tail out. split; [|split; [|split; [|split]]].
  - intros o. split.
    + cbn. destruct x as [c|e]; [|discriminate]. destruct (Z.eqb_spec c 0) as [->|_]; [|discriminate].
      unfold read_output. destruct out as [e|f]; [discriminate|]. intros E. injection E as <-.
      split; [reflexivity|]. exists f. split; reflexivity.
    + intros [-> (f & -> & ->)]. reflexivity.
  - intros c -> ->. cbn. rewrite app_nil_r. reflexivity.
  - intros c -> Hc. cbn. destruct (Z.eqb_spec c 0); [contradiction|reflexivity].
  - intros e ->. reflexivity.
  - reflexivity.
Qed.
Print Assumptions C75_result.

(* ------------------------------------------------------------------ *)
(** * Examples *)
Lemma small_512 f : Nat.leb (length (f_payload f)) 512 = true -> small copy_buffer f.
Proof.
  intros H. apply Nat.leb_le in H. split; [exact (Nat.le_trans _ _ _ H copy_buffer_512)|].
  apply (N.le_lt_trans _ 512); [lia|reflexivity].
Qed.
Example C75_example : let fs := [mkFrame 1 [104; 105; 10]%N; mkFrame 2 []; mkFrame 2 [33; 10]%N] in
  Forall (small copy_buffer) fs /\ io_copy (whole fs) [104; 105; 10; 33; 10]%N /\
  (length (text fs) <= 512)%nat /\ read_all (fun c => S c) 512 [] (whole fs) [104; 105; 10; 33; 10]%N.
Proof.
  intros fs.
  assert (H : Forall (small copy_buffer) fs).
  { repeat (constructor; [apply small_512; reflexivity|]). constructor. }
  split; [exact H|]. split; [exact (proj1 (C75_log_complete fs H))|]. split; [cbn; lia|].
  refine (proj1 (C75_error_text (fun c => S c) fs _ _ _)); [|intros c; lia|cbn; lia].
  exact (Forall_impl _ (fun f Hf => proj2 Hf) H).
Qed.

(** Not true without the bound: of a frame longer than the buffer only the beginning arrives. *)
Theorem C75_long_frame_refuted : exists fs out, Forall (fun f => N.of_nat (length (f_payload f)) < 2 ^ 32)%N fs /\
  io_copy (whole fs) out /\ length (text fs) = S copy_buffer /\ length out = copy_buffer.
Proof.
  exists [mkFrame 1 (repeat 65%N (S copy_buffer))], (cut copy_buffer [mkFrame 1 (repeat 65%N (S copy_buffer))]).
  assert (H : Forall (fun f => N.of_nat (length (f_payload f)) < 2 ^ 32)%N [mkFrame 1 (repeat 65%N (S copy_buffer))]).
  { constructor; [|constructor]. cbn [f_payload]. rewrite repeat_length. exact copy_buffer_u32. }
  split; [exact H|]. split; [exact (proj1 (C75_log_cut _ H))|].
  cbn [text cut flat_map f_payload]. rewrite !app_nil_r. split; [apply repeat_length|].
  rewrite firstn_length, repeat_length. apply Nat.min_l. apply Nat.le_succ_diag_r.
Qed.

(** Not true without full reads: if one read gives only 7 of the 8 bytes of a header, the log is garbage from there on. *)
Theorem C75_short_read_refuted : exists lims fs out, Forall (small copy_buffer) fs /\
  io_copy (mkBody (stream fs) lims) out /\ text fs = [104; 105]%N /\ out <> text fs.
Proof.
  exists [7%nat], [mkFrame 1 [104; 105]%N], [].
  split; [constructor; [apply small_512; reflexivity|constructor]|].
  split.
  - change (@nil byte) with ([] ++ [] : list byte)%list. eapply ic_more; [vm_compute; reflexivity|].
    eapply ic_end. vm_compute. reflexivity.
  - split; [reflexivity|discriminate].
Qed.

(** Not true: "the error text is the tail of the log".  Two lines of 300 bytes: the second is cut at 212. *)
Theorem C75_error_text_refuted : exists fs out, Forall (small copy_buffer) fs /\
  read_all (fun c => 2 * c) 512 [] (whole fs) out /\ length (text fs) = 600 /\ length out = 512.
Proof.
  set (fs := [mkFrame 1 (repeat 65%N 300); mkFrame 1 (repeat 66%N 300)]).
  exists fs, (repeat 65%N 300 ++ repeat 66%N 212).
  split; [unfold fs; repeat (constructor; [apply small_512; reflexivity|]); constructor|].
  split.
  - eapply ra_more; [vm_compute; reflexivity|]. eapply ra_more; [vm_compute; reflexivity|].
    match goal with |- read_all _ _ _ _ ?o => let x := eval vm_compute in o in change o with (x ++ [] : list byte)%list end.
    refine (eq_ind _ (fun z => read_all _ _ _ _ z) _ _ (app_nil_r _)).
    eapply ra_end. vm_compute. reflexivity.
  - split; reflexivity.
Qed.

(** The result of a directory put in the place of the file is all it contains. *)
Example C75_directory : wait None (Exited 0) None (inr (FDir [FFile [1]%N; FDir [FFile [2; 3]%N]])) = WOk [1; 2; 3]%N.
Proof. reflexivity. Qed.
