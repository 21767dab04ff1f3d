(** C62: who reaches the API.
    engine/coordinator.go:80-117 (echoMiddleware), 119-121 (rateLimit), 123-136 (basicAuth), 138-151 (keyAuth);
    internal/coordinator/api/api.go:82-198 (NewAPI, middlewareAdapter).
    The echo library's own middlewares (v4.13.3: BasicAuth, KeyAuth, CORS, RateLimiter, BodyLimit, RequestLogger) are
    not in the repository; they are modelled from their documented behaviour. *)
From Coq Require Import String List Ascii Bool Arith Lia.
From Verif Require Import Secrets Middleware.
Import ListNotations.
Open Scope string_scope.
Open Scope list_scope.

(* ------------------------------------------------------------------ *)
(** * Requests, answers, what happens *)
(** What the middlewares look at: method, path, the values of the Authorization headers in order, the length of the body,
    the Origin header (CORS), the remote address, and the user name put in the context (tork.USERNAME). *)
Record request := { q_method : string; q_path : string; q_auth : list string; q_body : nat; q_origin : option string;
                    q_addr : string; q_user : option string }.
Definition set_user (u : string) (q : request) : request :=
  {| q_method := q_method q; q_path := q_path q; q_auth := q_auth q; q_body := q_body q; q_origin := q_origin q;
     q_addr := q_addr q; q_user := Some u |}.
(** the endpoint functions of the API; [E_custom] is the handler of a custom endpoint *)
Inductive endpoint :=
| E_health | E_getTask | E_getTaskLog | E_listQueues | E_getQueue | E_deleteQueue | E_listActiveNodes
| E_createJob | E_getJob | E_getJobLog | E_listJobs | E_cancelJob | E_restartJob
| E_createScheduledJob | E_listScheduledJobs | E_getScheduledJob | E_pauseScheduledJob | E_resumeScheduledJob | E_deleteScheduledJob
| E_getMetrics | E_createUser | E_custom (spec : string).
(** A visible effect of serving a request: an endpoint function starts on this request. *)
Inductive event := Ran (e : endpoint) (q : request).
(** An HTTP status code, or whatever the endpoint answered *)
Inductive answer := Status (code : nat) | Answered (e : endpoint).
Definition server := request -> list event * answer.
(** echo.MiddlewareFunc *)
Definition mw := server -> server.

(* ------------------------------------------------------------------ *)
(** * The store's users *)
(** db/postgres/schema.go:20-27 *)
Record user := { u_id : string; u_name : string; u_username : string; u_hash : string; u_disabled : bool }.
(** postgres.go:1157-1166 GetUser: the first row whose user name or id is the argument (no ORDER BY: the order of [us] is any) *)
Definition get_user (us : list user) (k : string) : option user :=
  find (fun u => String.eqb (u_username u) k || String.eqb (u_id u) k) us.

(* ------------------------------------------------------------------ *)
(** * Authentication *)
Section Auth.
(** internal/hash/hash.go:13-16, CheckPasswordHash (bcrypt) *)
Variable check : string -> string -> bool.
(** echo RateLimiter's store: any decision about the caller's address *)
Variable allow : string -> bool.

(** ASCII lower case, for strings.EqualFold on a 5 or 7 byte ASCII scheme *)
Definition lower (c : ascii) : ascii :=
  let n := nat_of_ascii c in if Nat.leb 65 n && Nat.leb n 90 then ascii_of_nat (n + 32) else c.
Definition fold_eq (a b : string) : bool :=
  if list_eq_dec ascii_dec (map lower (list_ascii_of_string a)) (map lower (list_ascii_of_string b)) then true else false.
(** cred[:i], cred[i+1:] at the first colon *)
Fixpoint split_colon (l : list ascii) : option (list ascii * list ascii) :=
  match l with
  | [] => None
  | c :: l => if Ascii.eqb c ":"%char then Some ([], l)
              else match split_colon l with Some (a, b) => Some (c :: a, b) | None => None end
  end.
Definition drop (n : nat) (s : string) : string := substring n (String.length s - n) s.
(** echo BasicAuth: the credentials of a value of the Authorization header: [None] if it is not of the basic scheme,
    [Some None] if its base64 is wrong, [Some (Some (user, password))] otherwise; no colon counts as not basic *)
Definition basic_credentials (a : string) : option (option (string * string)) :=
  if Nat.ltb 6 (String.length a) && fold_eq (substring 0 5 a) "basic" then
    match b64_decode (list_ascii_of_string (drop 6 a)) with
    | None => Some None
    | Some cred => match split_colon cred with
                   | Some (u, p) => Some (Some (string_of_list_ascii u, string_of_list_ascii p))
                   | None => None
                   end
    end
  else None.
(** http.Header.Get: the first value or "" *)
Definition header_get (l : list string) : string := hd "" l.
(** engine/coordinator.go:123-136, in echo's BasicAuth *)
Definition basic_auth (us : list user) : mw := fun next q =>
  match basic_credentials (header_get (q_auth q)) with
  | Some None => ([], Status 400)
  | Some (Some (name, pass)) =>
      match get_user us name with
      | None => ([], Status 401)
      | Some u => if String.eqb name (u_username u) && check pass (u_hash u) then next (set_user name q) else ([], Status 401)
      end
  | None => ([], Status 401)
  end.
(** echo KeyAuth's extractor for header:Authorization with the scheme "Bearer": the key of every header value of that scheme
    (at most 20) *)
Definition bearer_keys (l : list string) : list string :=
  firstn 20 (flat_map (fun a => if Nat.ltb 6 (String.length a) && fold_eq (substring 0 7 a) "bearer " then [drop 7 a] else []) l).
(** engine/coordinator.go:138-151, in echo's KeyAuth: 400 when there is no key at all, 401 when none is right *)
Definition key_auth (key : string) : mw := fun next q =>
  if String.eqb (q_path q) "/health" then next q
  else if existsb (String.eqb key) (bearer_keys (q_auth q)) then next q
  else ([], Status (match bearer_keys (q_auth q) with [] => 400 | _ => 401 end)).
(** echo CORS: a preflight request is answered at once; others pass *)
Definition cors : mw := fun next q =>
  match q_origin q with
  | Some _ => if String.eqb (q_method q) "OPTIONS" then ([], Status 204) else next q
  | None => if String.eqb (q_method q) "OPTIONS" then ([], Status 204) else next q
  end.
(** engine/coordinator.go:119-121 *)
Definition rate_limit : mw := fun next q => if allow (q_addr q) then next q else ([], Status 429).
(** engine/coordinator.go:107-109: echo BodyLimit *)
Definition body_limit (n : nat) : mw := fun next q => if Nat.ltb n (q_body q) then ([], Status 413) else next q.
(** engine/coordinator.go:153-191: only logs *)
Definition logger : mw := fun next q => next q.

(** the settings read by echoMiddleware; [c_random] is the key made up when none is configured (uuid) *)
Record web_conf := { c_cors : bool; c_basic : bool; c_key : bool; c_key_value : string; c_random : string;
                     c_rate : bool; c_body : nat; c_logger : bool }.
(** engine/coordinator.go:138-142 *)
Definition the_key (c : web_conf) : string := if String.eqb (c_key_value c) "" then c_random c else c_key_value c.
(** engine/coordinator.go:80-117 *)
Definition echo_middleware (us : list user) (c : web_conf) : list mw :=
  (if c_cors c then [cors] else []) ++
  (if c_basic c then [basic_auth us] else []) ++
  (if c_key c then [key_auth (the_key c)] else []) ++
  (if c_rate c then [rate_limit] else []) ++
  [body_limit (c_body c)] ++
  (if c_logger c then [logger] else []).

(* ------------------------------------------------------------------ *)
(** * Routes *)
(** the groups of coordinator.api.endpoints *)
Record route := { r_method : string; r_path : string; r_endpoint : endpoint }.
Definition mk m p e := {| r_method := m; r_path := p; r_endpoint := e |}.
(** api.go:121-162: the built-in routes, each under the name of its group *)
Definition builtin : list (string * list route) :=
  [("health", [mk "GET" "/health" E_health]);
   ("tasks", [mk "GET" "/tasks/:id" E_getTask; mk "GET" "/tasks/:id/log" E_getTaskLog]);
   ("queues", [mk "GET" "/queues" E_listQueues; mk "GET" "/queues/:name" E_getQueue; mk "DELETE" "/queues/:name" E_deleteQueue]);
   ("nodes", [mk "GET" "/nodes" E_listActiveNodes]);
   ("jobs", [mk "POST" "/jobs" E_createJob; mk "GET" "/jobs/:id" E_getJob; mk "GET" "/jobs/:id/log" E_getJobLog;
             mk "GET" "/jobs" E_listJobs; mk "PUT" "/jobs/:id/cancel" E_cancelJob; mk "PUT" "/jobs/:id/restart" E_restartJob;
             mk "POST" "/scheduled-jobs" E_createScheduledJob; mk "GET" "/scheduled-jobs" E_listScheduledJobs;
             mk "GET" "/scheduled-jobs/:id" E_getScheduledJob; mk "PUT" "/scheduled-jobs/:id/pause" E_pauseScheduledJob;
             mk "PUT" "/scheduled-jobs/:id/resume" E_resumeScheduledJob; mk "DELETE" "/scheduled-jobs/:id" E_deleteScheduledJob]);
   ("metrics", [mk "GET" "/metrics" E_getMetrics]);
   ("users", [mk "POST" "/users" E_createUser])].
(** v, ok := cfg.Enabled[g]; !ok || v *)
Definition enabled (m : list (string * bool)) (g : string) : bool :=
  match find (fun p => String.eqb (fst p) g) m with None => true | Some (_, v) => v end.
(** strings.Split(spec, " ") *)
Fixpoint split_on (d : ascii) (l acc : list ascii) : list (list ascii) :=
  match l with
  | [] => [rev acc]
  | c :: l => if Ascii.eqb c d then rev acc :: split_on d l [] else split_on d l (c :: acc)
  end.
Definition split (d : ascii) (s : string) : list string := map string_of_list_ascii (split_on d (list_ascii_of_string s) []).
(** api.go:164-186: a specification that is not "METHOD /path" makes NewAPI fail *)
Fixpoint custom_routes (specs : list string) : option (list route) :=
  match specs with
  | [] => Some []
  | s :: specs => match split " "%char s with
                  | [m; p] => option_map (cons (mk m p (E_custom s))) (custom_routes specs)
                  | _ => None
                  end
  end.
(** api.go:121-186 *)
Definition routes (en : list (string * bool)) (specs : list string) : option (list route) :=
  option_map (fun c => flat_map (fun g => if enabled en (fst g) then snd g else []) builtin ++ c) (custom_routes specs).
(** A path matches a route when its segments do: a segment ":x" of the route stands for any segment. *)
Fixpoint segments (r p : list string) : bool :=
  match r, p with
  | [], [] => true
  | a :: r, b :: p => (match a with String c _ => Ascii.eqb c ":"%char | EmptyString => false end || String.eqb a b) && segments r p
  | _, _ => false
  end.
Definition matches (r : route) (q : request) : bool :=
  String.eqb (r_method r) (q_method q) && segments (split "/"%char (r_path r)) (split "/"%char (q_path q)).
(** echo's router picks one of the matching routes; which one when there are several is echo's business, so any choice
    is allowed here. *)
Definition router := list route -> request -> option route.
Definition router_ok (pick : router) : Prop := forall rs q,
  (forall r, pick rs q = Some r -> In r rs /\ matches r q = true) /\
  (pick rs q = None -> forall r, In r rs -> matches r q = false).
(** run the endpoint, or 404 *)
Definition dispatch (pick : router) (rs : list route) : server := fun q =>
  match pick rs q with Some r => ([Ran (r_endpoint r) q], Answered (r_endpoint r)) | None => ([], Status 404) end.

(** api.go:82-188 NewAPI: custom middlewares first, then echoMiddleware's, around the router.  The first one registered is
    the outermost (echo's applyMiddleware, as in C46). *)
Definition new_api (us : list user) (c : web_conf) (en : list (string * bool)) (specs : list string) (web : list mw) (pick : router) : option server :=
  option_map (fun rs => apply_middleware (dispatch pick rs) (web ++ echo_middleware us c)) (routes en specs).
End Auth.

(* ------------------------------------------------------------------ *)
(** * Specification *)
(** A custom middleware may answer by itself, alter the request, call the next handler any number of times, change the
    answer; it cannot start an endpoint function other than by calling the next handler. *)
Definition only_through_next (m : mw) : Prop :=
  forall (P : event -> Prop) next, (forall q, Forall P (fst (next q))) -> forall q, Forall P (fst (m next q)).

(** the request carries the name and password of an existing user, and that name is the one the endpoint sees *)
Definition has_password (check : string -> string -> bool) (us : list user) (q : request) : Prop :=
  exists u pass, In u us /\ q_user q = Some (u_username u) /\ check pass (u_hash u) = true /\
    basic_credentials (hd "" (q_auth q)) = Some (Some (u_username u, pass)).
(** the request carries the configured key *)
Definition has_key (key : string) (q : request) : Prop :=
  exists a, In a (q_auth q) /\ substring 7 (String.length a - 7) a = key /\ fold_eq (substring 0 7 a) "bearer " = true.

(* ------------------------------------------------------------------ *)
(** * Proofs *)
(** [m] hands on only requests for which [Q] holds, provided it was given one *)
Definition keeps (Q : request -> Prop) (m : mw) : Prop :=
  forall (P : event -> Prop) next, (forall q, Q q -> Forall P (fst (next q))) -> forall q, Q q -> Forall P (fst (m next q)).
(** [m] hands on only requests for which [Q] holds *)
Definition guards (Q : request -> Prop) (m : mw) : Prop :=
  forall (P : event -> Prop) next, (forall q, Q q -> Forall P (fst (next q))) -> forall q, Forall P (fst (m next q)).
Lemma chain_guarded : forall (Q : request -> Prop) pre m post (h : server) (P : event -> Prop),
  Forall only_through_next pre -> guards Q m -> Forall (keeps Q) post -> (forall q, Q q -> Forall P (fst (h q))) ->
  forall q, Forall P (fst (apply_middleware h (pre ++ m :: post) q)).
Proof.
  intros Q pre m post h P Hpre Hm Hpost Hh. rewrite apply_fold, fold_right_app. cbn [fold_right].
  assert (H1 : forall q, Q q -> Forall P (fst (fold_right (fun (m : mw) k => m k) h post q))).
  { clear Hpre. induction Hpost as [|m' post Hm' _ IH]; [exact Hh|]. cbn [fold_right]. apply Hm'. exact IH. }
  assert (H2 : forall q, Forall P (fst (m (fold_right (fun (m : mw) k => m k) h post) q))). { apply Hm. exact H1. }
  induction Hpre as [|m' pre Hm' _ IH]; [exact H2|]. cbn [fold_right]. apply Hm'. exact IH.
Qed.
Lemma keeps_body : forall Q n, keeps Q (body_limit n).
Proof. intros Q n P next H q Hq. unfold body_limit. destruct (Nat.ltb _ _); [constructor|apply H; exact Hq]. Qed.
Lemma keeps_rate : forall Q allow, keeps Q (rate_limit allow).
Proof. intros Q a P next H q Hq. unfold rate_limit. destruct (a (q_addr q)); [apply H; exact Hq|constructor]. Qed.
Lemma keeps_logger : forall Q, keeps Q logger.
Proof. intros Q P next H q Hq. apply H; exact Hq. Qed.
Lemma keeps_key : forall Q k, keeps Q (key_auth k).
Proof. intros Q k P next H q Hq. unfold key_auth. destruct (String.eqb _ _); [apply H; exact Hq|]. destruct (existsb _ _); [apply H; exact Hq|constructor]. Qed.
Lemma through_cors : only_through_next cors.
Proof. intros P next H q. unfold cors. destruct (q_origin q); destruct (String.eqb _ _); try constructor; apply H. Qed.
Lemma through_basic : forall check us, only_through_next (basic_auth check us).
Proof.
  intros c us P next H q. unfold basic_auth. destruct (basic_credentials _) as [[[n p]|]|]; try constructor.
  destruct (get_user us n); [|constructor]. destruct (_ && _); [apply H|constructor].
Qed.
Lemma key_guard : forall k, guards (fun q => q_path q = "/health" \/ has_key k q) (key_auth k).
Proof.
  intros k P next H q. unfold key_auth. destruct (String.eqb_spec (q_path q) "/health") as [E|E]; [apply H; auto|].
  destruct (existsb _ _) eqn:X; [|constructor]. apply H. right. apply existsb_exists in X. destruct X as (x & Hx & Ex).
  apply String.eqb_eq in Ex. subst x. unfold bearer_keys in Hx.
  assert (Hx' : In k (flat_map (fun a => if Nat.ltb 6 (String.length a) && fold_eq (substring 0 7 a) "bearer " then [drop 7 a] else []) (q_auth q))).
  { rewrite <- (firstn_skipn 20 (flat_map _ _)). apply in_or_app. now left. }
  apply in_flat_map in Hx'. destruct Hx' as (a & Ha & Hk). exists a. split; [exact Ha|].
  destruct (Nat.ltb 6 (String.length a) && fold_eq (substring 0 7 a) "bearer ") eqn:B; [|contradiction].
  apply andb_true_iff in B. destruct B as [B1 B2]. destruct Hk as [<-|[]]. auto.
Qed.
Lemma find_user : forall us k u, get_user us k = Some u -> In u us.
Proof. intros us k u H. unfold get_user in H. now apply find_some in H. Qed.
Lemma basic_guard : forall check us, guards (has_password check us) (basic_auth check us).
Proof.
  intros check us P next H q. unfold basic_auth. destruct (basic_credentials (header_get (q_auth q))) as [[[n p]|]|] eqn:B; try constructor.
  destruct (get_user us n) as [u|] eqn:G; [|constructor].
  destruct (String.eqb_spec n (u_username u)) as [E|E]; [|constructor]. cbn [andb].
  destruct (check p (u_hash u)) eqn:C; [|constructor]. apply H. exists u, p. subst n.
  split; [exact (find_user _ _ _ G)|]. split; [reflexivity|]. split; [exact C|exact B].
Qed.
Lemma after_key : forall allow c Q, Forall (keeps Q) ((if c_rate c then [rate_limit allow] else []) ++ [body_limit (c_body c)] ++ (if c_logger c then [logger] else [])).
Proof.
  intros allow c Q. repeat (apply Forall_app; split).
  - destruct (c_rate c); repeat constructor. apply keeps_rate.
  - repeat constructor. apply keeps_body.
  - destruct (c_logger c); repeat constructor. apply keeps_logger.
Qed.
Lemma dispatch_only : forall pick rs (Q : request -> Prop) q, Q q -> Forall (fun ev => match ev with Ran _ q => Q q end) (fst (dispatch pick rs q)).
Proof. intros pick rs Q q H. unfold dispatch. destruct (pick rs q); [|constructor]. constructor; [exact H|constructor]. Qed.

(** ** Nobody gets in without credentials *)
(** Whatever endpoints exist (built-in or custom), whatever custom middlewares are registered, whatever the request: an
    endpoint function runs only on a request that carries the name and password of a user of the store, and the user name
    it sees is that user's. *)
Theorem C62_basic_auth_protects : forall check allow us c en specs web pick api,
  c_basic c = true -> Forall only_through_next web -> new_api check allow us c en specs web pick = Some api ->
  forall q e q', In (Ran e q') (fst (api q)) -> has_password check us q'.
Proof.
  intros check allow us c en specs web pick api HB HW HA q e q' HI. unfold new_api in HA.
  destruct (routes en specs) as [rs|]; [|discriminate]. injection HA as <-.
  unfold echo_middleware in HI. rewrite HB in HI. rewrite (app_assoc web) in HI.
  set (P := fun ev => match ev with Ran _ q => has_password check us q end).
  pose proof (chain_guarded (has_password check us) (web ++ (if c_cors c then [cors] else [])) (basic_auth check us)
    ((if c_key c then [key_auth (the_key c)] else []) ++ ((if c_rate c then [rate_limit allow] else []) ++ [body_limit (c_body c)] ++ (if c_logger c then [logger] else [])))
    (dispatch pick rs) P) as G.
  assert (F : Forall P (fst (apply_middleware (dispatch pick rs) ((web ++ (if c_cors c then [cors] else [])) ++ basic_auth check us ::
     ((if c_key c then [key_auth (the_key c)] else []) ++ ((if c_rate c then [rate_limit allow] else []) ++ [body_limit (c_body c)] ++ (if c_logger c then [logger] else [])))) q))).
  { apply G.
    - apply Forall_app. split; [exact HW|]. destruct (c_cors c); repeat constructor. apply through_cors.
    - apply basic_guard.
    - apply Forall_app. split; [|apply after_key]. destruct (c_key c); repeat constructor. apply keeps_key.
    - intros q0 H. apply dispatch_only. exact H. }
  rewrite Forall_forall in F. exact (F _ HI).
Qed.
Print Assumptions C62_basic_auth_protects.

(** With key authentication an endpoint function runs only on a request that carries the key, or on the path /health. *)
Theorem C62_key_auth_protects : forall check allow us c en specs web pick api,
  c_key c = true -> Forall only_through_next web -> new_api check allow us c en specs web pick = Some api ->
  forall q e q', In (Ran e q') (fst (api q)) -> q_path q' = "/health" \/ has_key (the_key c) q'.
Proof.
  intros check allow us c en specs web pick api HB HW HA q e q' HI. unfold new_api in HA.
  destruct (routes en specs) as [rs|]; [|discriminate]. injection HA as <-.
  unfold echo_middleware in HI. rewrite HB in HI. rewrite (app_assoc web) in HI. rewrite (app_assoc (web ++ _)) in HI.
  set (Q := fun q => q_path q = "/health" \/ has_key (the_key c) q).
  set (P := fun ev => match ev with Ran _ q => Q q end).
  assert (F : Forall P (fst (apply_middleware (dispatch pick rs) (((web ++ (if c_cors c then [cors] else [])) ++ (if c_basic c then [basic_auth check us] else [])) ++ key_auth (the_key c) ::
     ((if c_rate c then [rate_limit allow] else []) ++ [body_limit (c_body c)] ++ (if c_logger c then [logger] else []))) q))).
  { apply (chain_guarded Q).
    - apply Forall_app. split; [apply Forall_app; split; [exact HW|]|].
      + destruct (c_cors c); repeat constructor. apply through_cors.
      + destruct (c_basic c); repeat constructor. apply through_basic.
    - apply key_guard.
    - apply after_key.
    - intros q0 H. apply dispatch_only. exact H. }
  rewrite Forall_forall in F. exact (F _ HI).
Qed.
Print Assumptions C62_key_auth_protects.

(** ** The body limit *)
(** No endpoint function ever sees a body larger than the limit, which is always on. *)
Theorem C62_body_limit : forall check allow us c en specs web pick api,
  Forall only_through_next web -> new_api check allow us c en specs web pick = Some api ->
  forall q e q', In (Ran e q') (fst (api q)) -> q_body q' <= c_body c.
Proof.
  intros check allow us c en specs web pick api HW HA q e q' HI. unfold new_api in HA.
  destruct (routes en specs) as [rs|]; [|discriminate]. injection HA as <-.
  unfold echo_middleware in HI. rewrite !app_assoc in HI. rewrite <- app_assoc in HI.
  set (Q := fun q => q_body q <= c_body c).
  set (P := fun ev => match ev with Ran _ q => Q q end).
  match type of HI with In _ (fst (apply_middleware ?h (?pre ++ ([?m] ++ ?post)) q)) =>
    assert (F : Forall P (fst (apply_middleware h (pre ++ (m :: post)) q))); [apply (chain_guarded Q)|] end.
  - repeat (apply Forall_app; split).
    + exact HW.
    + destruct (c_cors c); repeat constructor. apply through_cors.
    + destruct (c_basic c); repeat constructor. apply through_basic.
    + destruct (c_key c); repeat constructor. intros P' next H q0. unfold key_auth. destruct (String.eqb _ _); [apply H|]. destruct (existsb _ _); [apply H|constructor].
    + destruct (c_rate c); repeat constructor. intros P' next H q0. unfold rate_limit. destruct (allow (q_addr q0)); [apply H|constructor].
  - intros P' next H q0. unfold body_limit. destruct (Nat.ltb_spec (c_body c) (q_body q0)); [constructor|]. apply H. exact H0.
  - destruct (c_logger c); repeat constructor. apply keeps_logger.
  - intros q0 H. apply dispatch_only. exact H.
  - rewrite Forall_forall in F. exact (F _ HI).
Qed.
Print Assumptions C62_body_limit.

(** ** Switched-off endpoints *)
(** An endpoint function runs only if its group is not switched off, on a request for its own method and path. *)
Theorem C62_disabled_group : forall check allow us c en specs web pick api,
  NoDup (map fst en) (* a Go map *) -> router_ok pick -> Forall only_through_next web -> new_api check allow us c en specs web pick = Some api ->
  forall q e q', In (Ran e q') (fst (api q)) ->
    exists m p, q_method q' = m /\ segments (split "/" p) (split "/" (q_path q')) = true /\
    ((exists g rs, In (g, rs) builtin /\ In (mk m p e) rs /\ ~ In (g, false) en) \/
     (exists spec, In spec specs /\ e = E_custom spec /\ split " " spec = [m; p])).
Proof.
  intros check allow us c en specs web pick api ND HP HW HA q e q' HI. unfold new_api in HA.
  destruct (routes en specs) as [rs|] eqn:HR; [|discriminate]. injection HA as <-.
  set (P := fun ev => match ev with Ran e q => exists r, In r rs /\ matches r q = true /\ r_endpoint r = e end).
  assert (F : Forall P (fst (apply_middleware (dispatch pick rs) (web ++ echo_middleware check allow us c) q))).
  { rewrite apply_fold.
    assert (FW : Forall only_through_next (web ++ echo_middleware check allow us c)).
    { unfold echo_middleware. repeat (apply Forall_app; split).
      - exact HW.
      - destruct (c_cors c); repeat constructor. apply through_cors.
      - destruct (c_basic c); repeat constructor. apply through_basic.
      - destruct (c_key c); repeat constructor. intros P' next H q0. unfold key_auth. destruct (String.eqb _ _); [apply H|]. destruct (existsb _ _); [apply H|constructor].
      - destruct (c_rate c); repeat constructor. intros P' next H q0. unfold rate_limit. destruct (allow (q_addr q0)); [apply H|constructor].
      - repeat constructor. intros P' next H q0. unfold body_limit. destruct (Nat.ltb _ _); [constructor|apply H].
      - destruct (c_logger c); repeat constructor. intros P' next H q0. apply H. }
    clear HI. generalize q. induction FW as [|m l Hm _ IH]; cbn [fold_right].
    - intros q0. unfold dispatch. destruct (pick rs q0) as [r|] eqn:E; [|constructor]. constructor; [|constructor].
      apply (proj1 (HP rs q0)) in E. exists r. intuition.
    - apply Hm. exact IH. }
  rewrite Forall_forall in F. destruct (F _ HI) as (r & Hr & Hm & He). clear F HI.
  unfold matches in Hm. apply andb_true_iff in Hm. destruct Hm as [Hm Hs]. apply String.eqb_eq in Hm.
  exists (r_method r), (r_path r). split; [congruence|]. split; [exact Hs|].
  unfold routes in HR. destruct (custom_routes specs) as [cr|] eqn:HC; [|discriminate]. unfold option_map in HR.
  assert (HR' : rs = flat_map (fun g => if enabled en (fst g) then snd g else []) builtin ++ cr) by congruence. rewrite HR' in Hr. clear HR HR'.
  apply in_app_or in Hr. destruct Hr as [Hr|Hr]; [left|right].
  - apply in_flat_map in Hr. destruct Hr as ((g & l) & Hg & Hr). cbn [fst snd] in Hr. destruct (enabled en g) eqn:EN; [|contradiction].
    exists g, l. split; [exact Hg|]. split; [destruct r; cbn in *; subst; exact Hr|]. intros Hv.
    revert Hv EN ND. clear. unfold enabled. induction en as [|[g' v] en IH]; [intros []|]. cbn [find fst map]. intros Hv EN ND.
    inversion ND as [|? ? N1 N2]; subst. destruct (String.eqb_spec g' g) as [->|NE].
    + destruct Hv as [Hv|Hv]; [congruence|]. apply N1. apply in_map_iff. exists (g, false). auto.
    + destruct Hv as [Hv|Hv]; [congruence|]. exact (IH Hv EN N2).
  - revert cr HC Hr. clear - He. induction specs as [|s specs IH]; intros cr HC Hr; cbn [custom_routes] in HC; [injection HC as <-; contradiction|].
    destruct (split " " s) as [|m [|p [|? ?]]] eqn:S; try discriminate.
    destruct (custom_routes specs) as [cr'|]; [|discriminate]. injection HC as <-. destruct Hr as [<-|Hr].
    + exists s. cbn in *. split; [now left|]. split; [congruence|exact S].
    + destruct (IH _ eq_refl Hr) as (s' & H1 & H2). exists s'. split; [now right|exact H2].
Qed.
Print Assumptions C62_disabled_group.

(** ** Those who have credentials get in *)
(** the request as the endpoint sees it *)
Definition as_user (c : web_conf) (name : string) (q : request) : request := if c_basic c then set_user name q else q.
(** A request of a registered user with the right password (if passwords are asked for) and the right key (if a key is asked
    for), not a preflight one, within the limits, reaches the endpoint of its route, under that user's name. *)
Theorem C62_credentials_pass : forall check allow us c en specs pick api rs r q u pass,
  new_api check allow us c en specs [] pick = Some api -> routes en specs = Some rs ->
  (c_cors c = true -> q_method q <> "OPTIONS") ->
  (c_basic c = true -> basic_credentials (hd "" (q_auth q)) = Some (Some (u_username u, pass)) /\
     get_user us (u_username u) = Some u /\ check pass (u_hash u) = true) ->
  (c_key c = true -> q_path q = "/health" \/ In (the_key c) (bearer_keys (q_auth q))) ->
  (c_rate c = true -> allow (q_addr q) = true) -> q_body q <= c_body c ->
  pick rs (as_user c (u_username u) q) = Some r ->
  api q = ([Ran (r_endpoint r) (as_user c (u_username u) q)], Answered (r_endpoint r)).
Proof.
  intros check allow us c en specs pick api rs r q u pass HA HRS HC HB HK HR HL HP.
  unfold new_api in HA. rewrite HRS in HA. injection HA as <-. rewrite apply_fold. cbn [app]. unfold echo_middleware.
  assert (S1 : forall h q, (c_cors c = true -> q_method q <> "OPTIONS") -> fold_right (fun (m : mw) k => m k) h (if c_cors c then [cors] else []) q = h q).
  { intros h q0 H. destruct (c_cors c); [|reflexivity]. cbn [fold_right]. unfold cors. specialize (H eq_refl). apply String.eqb_neq in H. rewrite H. destruct (q_origin q0); reflexivity. }
  assert (S2 : forall h, fold_right (fun (m : mw) k => m k) h (if c_basic c then [basic_auth check us] else []) q = h (as_user c (u_username u) q)).
  { intros h. unfold as_user. destruct (c_basic c); [|reflexivity]. cbn [fold_right]. unfold basic_auth. destruct (HB eq_refl) as (B1 & B2 & B3).
    unfold header_get. rewrite B1, B2, B3, String.eqb_refl. reflexivity. }
  set (q' := as_user c (u_username u) q) in *.
  assert (EQ : q_path q' = q_path q /\ q_auth q' = q_auth q /\ q_body q' = q_body q /\ q_addr q' = q_addr q).
  { unfold q', as_user. destruct (c_basic c); auto. }
  destruct EQ as (E1 & E2 & E3 & E4).
  assert (S3 : forall h, fold_right (fun (m : mw) k => m k) h (if c_key c then [key_auth (the_key c)] else []) q' = h q').
  { intros h. destruct (c_key c); [|reflexivity]. cbn [fold_right]. unfold key_auth. rewrite E1, E2. destruct (HK eq_refl) as [H|H].
    - rewrite H. reflexivity.
    - destruct (String.eqb _ _); [reflexivity|]. replace (existsb _ _) with true; [reflexivity|]. symmetry. apply existsb_exists. exists (the_key c). split; [exact H|apply String.eqb_refl]. }
  assert (S4 : forall h, fold_right (fun (m : mw) k => m k) h (if c_rate c then [rate_limit allow] else []) q' = h q').
  { intros h. destruct (c_rate c); [|reflexivity]. cbn [fold_right]. unfold rate_limit. rewrite E4, HR by reflexivity. reflexivity. }
  rewrite fold_right_app, S1 by exact HC. rewrite fold_right_app, S2, fold_right_app, S3, fold_right_app, S4. cbn [app fold_right].
  unfold body_limit. rewrite E3. destruct (Nat.ltb_spec (c_body c) (q_body q)); [lia|].
  assert (D : dispatch pick rs q' = ([Ran (r_endpoint r) q'], Answered (r_endpoint r))). { unfold dispatch. now rewrite HP. }
  destruct (c_logger c); exact D.
Qed.
Print Assumptions C62_credentials_pass.

(** ** An empty key is never accepted *)
Theorem C62_no_empty_key : forall c, c_random c <> "" -> the_key c <> "".
Proof. intros c H. unfold the_key. destruct (String.eqb_spec (c_key_value c) ""); assumption. Qed.
Print Assumptions C62_no_empty_key.

(* ------------------------------------------------------------------ *)
(** * A concrete case *)
(** a router that takes the first match *)
Definition first_match : router := fun rs q => find (fun r => matches r q) rs.
Lemma first_match_ok : router_ok first_match.
Proof.
  intros rs q. split.
  - intros r H. unfold first_match in H. apply find_some in H. exact H.
  - intros H r Hr. unfold first_match in H. exact (find_none _ _ H r Hr).
Qed.
Definition ann : user := {| u_id := "1"; u_name := "Ann"; u_username := "ann"; u_hash := "#s3cret"; u_disabled := false |}.
Definition guest : user := {| u_id := "0"; u_name := "Guest"; u_username := "guest"; u_hash := ""; u_disabled := true |}.
Definition toy_check (p h : string) : bool := String.eqb h ("#" ++ p)%string.
Definition both : web_conf := {| c_cors := true; c_basic := true; c_key := true; c_key_value := "k1"; c_random := "r"; c_rate := true; c_body := 500; c_logger := true |}.
Definition get (path : string) (auth : list string) : request :=
  {| q_method := "GET"; q_path := path; q_auth := auth; q_body := 0; q_origin := None; q_addr := "::1"; q_user := None |}.
Definition ann_header : string := ("Basic " ++ string_of_list_ascii (b64_encode (list_ascii_of_string "ann:s3cret")))%string.
Definition ask (c : web_conf) (en : list (string * bool)) (q : request) : option answer :=
  option_map (fun api : server => snd (api q)) (new_api toy_check (fun _ => true) [guest; ann] c en ["GET /hello"] [] first_match).
Example C62_nonvacuous :
  ask both [] (get "/jobs/1/log" [ann_header; "bearer k1"]) = Some (Answered E_getJobLog) /\
  ask both [] (get "/hello" [ann_header; "Bearer k1"]) = Some (Answered (E_custom "GET /hello")) /\
  ask both [] (get "/jobs/1" [ann_header; "Bearer k2"]) = Some (Status 401) /\
  ask both [] (get "/jobs/1" [ann_header]) = Some (Status 400) /\
  ask both [] (get "/jobs/1" ["Bearer k1"]) = Some (Status 401) /\
  ask both [] (get "/health" [ann_header]) = Some (Answered E_health) /\
  ask both [] (get "/health" []) = Some (Status 401) /\
  ask both [("jobs", false)] (get "/jobs/1" [ann_header; "Bearer k1"]) = Some (Status 404) /\
  ask both [("jobs", false)] (get "/scheduled-jobs" [ann_header; "Bearer k1"]) = Some (Status 404) /\
  ask both [("jobs", false)] (get "/tasks/1" [ann_header; "Bearer k1"]) = Some (Answered E_getTask).
Proof. vm_compute. repeat split; reflexivity. Qed.

(** Not every request that one would expect is let in: with both kinds of authentication on, a client that sends a single
    Authorization header is refused on every path but /health. *)
Theorem C62_both_with_one_header_refuted : forall check allow us c en specs pick api q a,
  c_basic c = true -> c_key c = true -> c_cors c = false -> q_path q <> "/health" -> q_auth q = [a] ->
  new_api check allow us c en specs [] pick = Some api -> fst (api q) = [].
Proof.
  intros check allow us c en specs pick api q a HB HK HC HP HA H. unfold new_api in H. destruct (routes en specs) as [rs|]; [|discriminate].
  injection H as <-. rewrite apply_fold. cbn [app]. unfold echo_middleware. rewrite HB, HK, HC. cbn [app fold_right].
  unfold basic_auth at 1. rewrite HA. unfold header_get, hd.
  destruct (basic_credentials a) as [[[n p]|]|] eqn:B; try reflexivity.
  destruct (get_user us n); [|reflexivity]. destruct (_ && _); [|reflexivity].
  unfold key_auth at 1. cbn [set_user q_path q_auth]. apply String.eqb_neq in HP. rewrite HP, HA.
  assert (X : fold_eq (substring 0 7 a) "bearer " = false).
  { unfold basic_credentials in B. destruct (Nat.ltb 6 (String.length a) && fold_eq (substring 0 5 a) "basic") eqn:F; [|discriminate].
    apply andb_true_iff in F. destruct F as [L F]. clear B.
    destruct a as [|c0 [|c1 a]]; [discriminate|discriminate|]. unfold fold_eq in *.
    destruct (list_eq_dec ascii_dec (map lower (list_ascii_of_string (substring 0 5 (String c0 (String c1 a))))) _) as [E|]; [|discriminate].
    destruct (list_eq_dec _ _ _) as [E'|]; [|reflexivity]. exfalso.
    cbn in E, E'. injection E as _ E. injection E' as _ E'. rewrite E in E'. discriminate. }
  unfold bearer_keys. cbn [flat_map]. rewrite X, andb_false_r. reflexivity.
Qed.
Print Assumptions C62_both_with_one_header_refuted.
(** A user marked as disabled is let in like any other. *)
Theorem C62_disabled_user_refuted : exists us u q api e q',
  In u us /\ u_disabled u = true /\
  new_api toy_check (fun _ => true) us {| c_cors := false; c_basic := true; c_key := false; c_key_value := ""; c_random := "r"; c_rate := false; c_body := 500; c_logger := true |}
    [] [] [] first_match = Some api /\
  In (Ran e q') (fst (api q)) /\ q_user q' = Some (u_username u).
Proof.
  exists [{| u_id := "1"; u_name := "Ann"; u_username := "ann"; u_hash := "#s3cret"; u_disabled := true |}], {| u_id := "1"; u_name := "Ann"; u_username := "ann"; u_hash := "#s3cret"; u_disabled := true |}, (get "/jobs" [ann_header]).
  eexists. exists E_listJobs, (set_user "ann" (get "/jobs" [ann_header])).
  split; [now left|]. split; [reflexivity|]. split; [reflexivity|]. split; [|reflexivity]. vm_compute. left. reflexivity.
Qed.
Print Assumptions C62_disabled_user_refuted.
