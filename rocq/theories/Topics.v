(** C69: event subscriptions with the RabbitMQ broker select at least the events the in-memory broker selects.
    broker/rabbitmq.go:633-640 (SubscribeForEvents), 642-644 (PublishEvent); broker/inmemory.go:273-303 with
    internal/wildcard (C41); broker/broker.go:14-17 (the topics used). *)
From Coq Require Import String Ascii List Bool Arith Lia.
From Verif Require Import Wildcard.
Import ListNotations.
Open Scope list_scope.

(* ------------------------------------------------------------------ *)
(** * The server's rule (AMQP topic exchange): a key is a sequence of words separated by dots; in a binding key the word
    [*] stands for exactly one word and the word [#] for any number of words, none included *)
Definition dot : ascii := "."%char.
Definition hash : ascii := "#"%char.
Fixpoint words (s : bytes) : list bytes :=
  match s with
  | [] => [[]]
  | c :: s => match words s with
              | w :: ws => if Ascii.eqb c dot then [] :: w :: ws else (c :: w) :: ws
              | [] => []
              end
  end.
Inductive matches : list bytes -> list bytes -> Prop :=
| m_nil : matches [] []
| m_word : forall w p k, w <> [star] -> w <> [hash] -> matches p k -> matches (w :: p) (w :: k)
| m_star : forall w p k, matches p k -> matches ([star] :: p) (w :: k)
| m_hash : forall ws p k, matches p k -> matches ([hash] :: p) (ws ++ k).
(** the binding with this key receives events published with this topic *)
Definition bound (key topic : bytes) : Prop := matches (words key) (words topic).

(* ------------------------------------------------------------------ *)
(** * The code *)
(** rabbitmq.go:634 [strings.ReplaceAll(pattern, "*", "#")] *)
Definition key_of (pattern : bytes) : bytes := map (fun c => if Ascii.eqb c star then hash else c) pattern.
(** rabbitmq.go:633-644: the events a subscription receives *)
Definition rabbit_selects (pattern topic : bytes) : Prop := bound (key_of pattern) topic.
(** inmemory.go:284-303 with wildcard.go *)
Definition inmem_selects (pattern topic : bytes) : Prop := wild_match pattern topic = true.

(* ------------------------------------------------------------------ *)
(** * Specification *)
(** a pattern made of words joined by dots *)
Fixpoint join (ws : list bytes) : bytes :=
  match ws with [] => [] | [w] => w | w :: ws => w ++ dot :: join ws end.
(** a word in which nothing is special *)
Definition plain (w : bytes) : Prop := ~ In star w /\ ~ In hash w /\ ~ In dot w.

(* ------------------------------------------------------------------ *)
(** * Proofs *)
Lemma words_nonnil : forall s, words s <> [].
Proof. induction s as [|c s IH]; cbn; [discriminate|]. destruct (words s) as [|w ws]; [contradiction|]. destruct (Ascii.eqb c dot); discriminate. Qed.
Lemma words_dot : forall x y, words (x ++ dot :: y) = words x ++ words y.
Proof.
  induction x as [|c x IH]; intros y.
  - cbn. pose proof (words_nonnil y). destruct (words y) as [|w ws]; [contradiction|]. reflexivity.
  - cbn. rewrite IH. pose proof (words_nonnil x). destruct (words x) as [|w ws]; [contradiction|]. cbn. destruct (Ascii.eqb c dot); reflexivity.
Qed.
Lemma words_plain : forall w, ~ In dot w -> words w = [w].
Proof.
  induction w as [|c w IH]; intros H; [reflexivity|]. cbn. rewrite IH by (intros X; apply H; right; exact X).
  destruct (Ascii.eqb c dot) eqn:E; [|reflexivity]. apply Ascii.eqb_eq in E. destruct H. left. exact E.
Qed.
Lemma words_join : forall ws, ws <> [] -> (forall w, In w ws -> ~ In dot w) -> words (join ws) = ws.
Proof.
  induction ws as [|w ws IH]; intros N H; [contradiction|]. destruct ws as [|v ws]; [cbn [join]; apply words_plain; apply H; left; reflexivity|].
  change (join (w :: v :: ws)) with (w ++ dot :: join (v :: ws)). rewrite words_dot, IH; [|discriminate|intros; apply H; right; assumption].
  rewrite words_plain by (apply H; left; reflexivity). reflexivity.
Qed.
Lemma join_words : forall s, join (words s) = s.
Proof.
  induction s as [|c s IH]; [reflexivity|]. cbn [words]. pose proof (words_nonnil s). destruct (words s) as [|w ws]; [contradiction|].
  destruct (Ascii.eqb c dot) eqn:E.
  - apply Ascii.eqb_eq in E. subst c. change (join ([] :: w :: ws)) with ([] ++ dot :: join (w :: ws)). rewrite IH. reflexivity.
  - destruct ws as [|v ws]; cbn in *; now rewrite IH.
Qed.
Lemma key_app : forall a b, key_of (a ++ b) = key_of a ++ key_of b.
Proof. intros. apply map_app. Qed.
Lemma key_plain : forall w, ~ In star w -> key_of w = w.
Proof.
  induction w as [|c w IH]; intros H; [reflexivity|]. change (key_of (c :: w)) with ((if Ascii.eqb c star then hash else c) :: key_of w). rewrite IH by (intros X; apply H; right; exact X).
  destruct (Ascii.eqb c star) eqn:E; [|reflexivity]. apply Ascii.eqb_eq in E. destruct H. left. exact E.
Qed.
Lemma key_join : forall ws, key_of (join ws) = join (map key_of ws).
Proof.
  induction ws as [|w ws IH]; [reflexivity|]. destruct ws as [|v ws]; [reflexivity|].
  change (join (w :: v :: ws)) with (w ++ dot :: join (v :: ws)). rewrite key_app. cbn [key_of map]. 
  change (map (fun c => if Ascii.eqb c star then hash else c) (join (v :: ws))) with (key_of (join (v :: ws))). rewrite IH. reflexivity.
Qed.
Lemma key_dotless : forall w, ~ In dot w -> ~ In dot (key_of w).
Proof.
  intros w H X. unfold key_of in X. apply in_map_iff in X. destruct X as (c & E & Hc). destruct (Ascii.eqb c star); [discriminate|]. congruence.
Qed.
Lemma obtained_app : forall w p s, ~ In star w -> obtained (w ++ p) s -> exists s', s = w ++ s' /\ obtained p s'.
Proof.
  induction w as [|c w IH]; intros p s H O; [exists s; auto|]. cbn in O. inversion O; subst.
  - destruct (IH p s0) as (s' & -> & O'); [intros X; apply H; right; exact X|assumption|]. exists s'. auto.
  - destruct H. left. reflexivity.
Qed.
Lemma obtained_exact : forall w s, ~ In star w -> obtained w s -> s = w.
Proof.
  intros w s H O. rewrite <- (app_nil_r w) in O. destruct (obtained_app _ _ _ H O) as (s' & -> & O'). inversion O'. now rewrite app_nil_r.
Qed.
Lemma obtained_dot : forall p s, obtained (dot :: p) s -> exists s', s = dot :: s' /\ obtained p s'.
Proof. intros p s O. inversion O; subst. eauto. Qed.
Lemma obtained_refl_app : forall w p s, ~ In star w -> obtained p s -> obtained (w ++ p) (w ++ s).
Proof.
  induction w as [|c w IH]; intros p s H O; [exact O|]. cbn. constructor; [intros ->; apply H; left; reflexivity|].
  apply IH; [intros X; apply H; right; exact X|exact O].
Qed.

(** for patterns whose stars stand alone between dots (as in [job.*]), every event that reaches a subscriber of the
    in-memory broker also reaches a subscriber of the RabbitMQ broker *)
Theorem C69_rabbit_selects_at_least : forall ws topic, ws <> [] -> (forall w, In w ws -> w = [star] \/ plain w) ->
  inmem_selects (join ws) topic -> rabbit_selects (join ws) topic.
Proof.
  intros ws topic N P M. unfold inmem_selects in M. apply C41_wildcard in M. unfold rabbit_selects, bound. rewrite key_join.
  assert (ND : forall w, In w ws -> ~ In dot w).
  { intros w Hw. destruct (P w Hw) as [->|(_ & _ & D)]; [|exact D]. intros [X|[]]. discriminate. }
  rewrite words_join; [| |].
  2:{ destruct ws; [contradiction|discriminate]. }
  2:{ intros w Hw. apply in_map_iff in Hw. destruct Hw as (v & <- & Hv). apply key_dotless. apply ND. exact Hv. }
  clear ND. revert topic M. induction ws as [|w ws IH]; intros topic M; [contradiction|].
  assert (KW : ~ In star w -> plain w -> key_of w = w /\ w <> [star] /\ w <> [hash]).
  { intros S (A & B & C). split; [apply key_plain; exact A|]. split; intros ->; [apply A|apply B]; left; reflexivity. }
  destruct ws as [|v ws].
  - cbn [join map] in *. destruct (P w (or_introl eq_refl)) as [->|PL].
    + change (key_of [star]) with [hash]. rewrite <- (app_nil_r (words topic)). apply m_hash. constructor.
    + destruct PL as (A & B & C). rewrite (obtained_exact _ _ A M). rewrite words_plain by exact C.
      destruct (KW A (conj A (conj B C))) as (-> & D & E). apply m_word; auto. constructor.
  - change (join (w :: v :: ws)) with (w ++ dot :: join (v :: ws)) in M. cbn [map]. 
    assert (IH' : forall t, obtained (join (v :: ws)) t -> matches (map key_of (v :: ws)) (words t)).
    { apply IH; [discriminate|intros; apply P; right; assumption]. }
    destruct (P w (or_introl eq_refl)) as [->|PL].
    + change (key_of [star]) with [hash]. cbn [app] in M. inversion M; subst; [congruence|].
      match goal with H : obtained (dot :: _) _ |- _ => destruct (obtained_dot _ _ H) as (t & -> & O) end.
      rewrite words_dot. apply m_hash. exact (IH' _ O).
    + destruct PL as (A & B & C). destruct (obtained_app _ _ _ A M) as (t & -> & O). destruct (obtained_dot _ _ O) as (t' & -> & O').
      rewrite words_dot, words_plain by exact C. destruct (KW A (conj A (conj B C))) as (-> & D & E). cbn [app]. apply m_word; auto.
Qed.

(** for a pattern [w1.….wn.*] the two brokers agree on every topic except [w1.….wn] itself *)
Lemma matches_prefix : forall pre k, (forall w, In w pre -> plain w) -> matches (pre ++ [[hash]]) k -> exists ws, k = pre ++ ws.
Proof.
  induction pre as [|w pre IH]; intros k P M.
  - cbn. eauto.
  - assert (PW : plain w) by (apply P; left; reflexivity). cbn in M. inversion M; subst.
    + destruct (IH k0) as (ws & ->); [intros; apply P; right; assumption|assumption|]. exists ws. reflexivity.
    + destruct PW as (A & _). destruct A. left. reflexivity.
    + destruct PW as (_ & A & _). destruct A. left. reflexivity.
Qed.
Lemma join_app : forall a b, a <> [] -> b <> [] -> join (a ++ b) = join a ++ dot :: join b.
Proof.
  induction a as [|w a IH]; intros b Na Nb; [contradiction|]. destruct a as [|v a].
  - cbn [app]. destruct b; [contradiction|]. reflexivity.
  - change (join ((w :: v :: a) ++ b)) with (w ++ dot :: join ((v :: a) ++ b)). rewrite IH by (discriminate || assumption).
    change (join (w :: v :: a)) with (w ++ dot :: join (v :: a)). now rewrite <- app_assoc.
Qed.
Lemma join_nostar : forall ws, (forall w, In w ws -> ~ In star w) -> ~ In star (join ws).
Proof.
  induction ws as [|w ws IH]; intros H; [intros []|]. destruct ws as [|v ws]; [apply H; left; reflexivity|].
  change (join (w :: v :: ws)) with (w ++ dot :: join (v :: ws)). intros X. apply in_app_or in X. destruct X as [X|[X|X]].
  - exact (H w (or_introl eq_refl) X).
  - discriminate.
  - apply IH; [intros; apply H; right; assumption|exact X].
Qed.
Theorem C69_prefix_patterns_exactly : forall pre topic, pre <> [] -> (forall w, In w pre -> plain w) ->
  (rabbit_selects (join (pre ++ [[star]])) topic <-> inmem_selects (join (pre ++ [[star]])) topic \/ topic = join pre).
Proof.
  intros pre topic N P.
  assert (PS : forall w, In w pre -> ~ In star w) by (intros w Hw; exact (proj1 (P w Hw))).
  assert (PD : forall w, In w pre -> ~ In dot w) by (intros w Hw; exact (proj2 (proj2 (P w Hw)))).
  assert (KP : map key_of pre = pre).
  { rewrite <- (map_id pre) at 2. apply map_ext_in. intros w Hw. apply key_plain. apply PS. exact Hw. }
  assert (KW : words (key_of (join (pre ++ [[star]]))) = pre ++ [[hash]]).
  { rewrite key_join, map_app, KP. change (map key_of [[star]]) with [[hash]]. apply words_join; [destruct pre; discriminate|].
    intros w Hw. apply in_app_or in Hw. destruct Hw as [Hw|[<-|[]]]; [apply PD; exact Hw|]. intros [X|[]]; discriminate. }
  split.
  - intros M. unfold rabbit_selects, bound in M. rewrite KW in M. destruct (matches_prefix _ _ P M) as (ws & E).
    pose proof (join_words topic) as J. rewrite E in J. destruct ws as [|v ws].
    + right. rewrite app_nil_r in J. auto.
    + left. unfold inmem_selects. apply C41_wildcard. rewrite <- J. rewrite !join_app by (discriminate || assumption).
      apply obtained_refl_app; [apply join_nostar; exact PS|]. apply ob_char; [discriminate|].
      change (join [[star]]) with [star]. rewrite <- (app_nil_r (join (v :: ws))). apply ob_star. constructor.
  - intros [M|M].
    + apply C69_rabbit_selects_at_least; [destruct pre; discriminate| |exact M].
      intros w Hw. apply in_app_or in Hw. destruct Hw as [Hw|[<-|[]]]; [right; apply P; exact Hw|left; reflexivity].
    + unfold rabbit_selects, bound. rewrite KW, M, words_join by assumption.
      clear - P. induction pre as [|w pre IH]; [apply (m_hash [] [] []); constructor|]. cbn. destruct (P w (or_introl eq_refl)) as (A & B & C).
      apply m_word; [intros ->; apply A; left; reflexivity|intros ->; apply B; left; reflexivity|]. apply IH. intros; apply P; right; assumption.
Qed.
(** without stars both select exactly the topic itself *)
Theorem C69_plain_patterns : forall ws topic, ws <> [] -> (forall w, In w ws -> plain w) ->
  (rabbit_selects (join ws) topic <-> topic = join ws) /\ (inmem_selects (join ws) topic <-> topic = join ws).
Proof.
  intros ws topic N P.
  assert (PS : forall w, In w ws -> ~ In star w) by (intros w Hw; exact (proj1 (P w Hw))).
  assert (PD : forall w, In w ws -> ~ In dot w) by (intros w Hw; exact (proj2 (proj2 (P w Hw)))).
  split; [|apply C41_literal; apply join_nostar; exact PS].
  unfold rabbit_selects, bound. rewrite key_plain by (apply join_nostar; exact PS). rewrite words_join by assumption.
  assert (G : forall k, matches ws k <-> k = ws).
  { clear - P. induction ws as [|w ws IH]; intros k; split; intros M.
    - inversion M; reflexivity.
    - subst. constructor.
    - destruct (P w (or_introl eq_refl)) as (A & B & C). inversion M; subst.
      + f_equal. apply IH; [intros; apply P; right; assumption|assumption].
      + destruct A. left; reflexivity.
      + destruct B. left; reflexivity.
    - subst. destruct (P w (or_introl eq_refl)) as (A & B & C).
      apply m_word; [intros ->; apply A; left; reflexivity|intros ->; apply B; left; reflexivity|].
      apply IH; [intros; apply P; right; assumption|reflexivity]. }
  rewrite G. split; intros E; [rewrite <- (join_words topic), E; reflexivity|rewrite E; apply words_join; assumption].
Qed.

(* ------------------------------------------------------------------ *)
(** * The hypotheses are met; where the brokers differ *)
Definition b (s : string) : bytes := list_ascii_of_string s.
(** the patterns the program uses: broker.go:14-17; [job.*] is used by the engine and the API, [scheduled.job] by the coordinator *)
Lemma plain_dec : forall w, (forall c, In c w -> c <> star /\ c <> hash /\ c <> dot) -> plain w.
Proof. intros w H. repeat split; intros X; apply H in X; destruct X as (A & B & C); congruence. Qed.
Example C69_nonvacuous : b "job.*" = join [b "job"; [star]] /\ plain (b "job")
  /\ b "scheduled.job" = join [b "scheduled"; b "job"] /\ plain (b "scheduled")
  /\ rabbit_selects (b "job.*") (b "job.completed") /\ inmem_selects (b "job.*") (b "job.completed").
Proof.
  assert (PJ : plain (b "job")) by (apply plain_dec; cbn; intros c H; repeat destruct H as [<-|H]; try destruct H; repeat split; discriminate).
  split; [reflexivity|]. split; [exact PJ|]. split; [reflexivity|].
  split; [apply plain_dec; cbn; intros c H; repeat destruct H as [<-|H]; try destruct H; repeat split; discriminate|].
  assert (M : inmem_selects (b "job.*") (b "job.completed")) by (vm_compute; reflexivity).
  split; [|exact M]. change (b "job.*") with (join [b "job"; [star]]) in *. apply C69_rabbit_selects_at_least; [discriminate| |exact M].
  intros w [<-|[<-|[]]]; [right; exact PJ|left; reflexivity].
Qed.
(** a star inside a word is a wildcard in memory and a literal character with RabbitMQ; and [job.*] selects [job] with RabbitMQ only *)
Theorem C69_star_inside_a_word_refuted :
  inmem_selects (b "job.comp*") (b "job.completed") /\ ~ rabbit_selects (b "job.comp*") (b "job.completed")
  /\ rabbit_selects (b "job.*") (b "job") /\ ~ inmem_selects (b "job.*") (b "job").
Proof.
  split; [vm_compute; reflexivity|]. split.
  - intros M. unfold rabbit_selects, bound in M. vm_compute in M. inversion M; subst. inversion H4.
  - split; [|vm_compute; discriminate]. unfold rabbit_selects, bound.
    change (words (key_of (b "job.*"))) with [b "job"; [hash]]. change (words (b "job")) with [b "job"].
    apply m_word; [discriminate|discriminate|]. apply (m_hash [] [] []). constructor.
Qed.

Print Assumptions C69_rabbit_selects_at_least.
Print Assumptions C69_prefix_patterns_exactly.
Print Assumptions C69_plain_patterns.
Print Assumptions C69_star_inside_a_word_refuted.
