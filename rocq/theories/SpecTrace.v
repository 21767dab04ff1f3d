(** Specification vocabulary over executions (sequences of labels). Definitions only. *)
From Verif Require Export SpecState.
Open Scope string_scope.
Open Scope list_scope.
Open Scope Z_scope.

(** the label is the delivery of a job message for job [i] asking for state [s] *)
Definition is_job_delivery (i : id) (s : jstate) (l : label) : bool :=
  match l with
  | LDeliver (MJob j) => (N.eqb (j_id j) i && jstate_eqb (j_state j) s)%bool
  | _ => false
  end.
(** how many times the submission message of job [i] is delivered *)
Definition submissions_delivered (i : id) (ls : list label) : nat := length (filter (is_job_delivery i JPending) ls).

(** some restart request for job [i] is being handled during [ls] *)
Definition restart_handled (i : id) (ls : list label) : Prop :=
  exists j, In (LOp (OMsg (MJob j))) ls /\ j_id j = i /\ j_state j = JRestart.
(** some pending-queue message about task [i] of job [ji] is being handled during [ls] (for a job's first task the coordinator
    handles it directly when it starts the job) *)
Definition pending_handled (i ji : id) (ls : list label) : Prop :=
  (exists t, In (LOp (OMsg (MTask QUEUE_PENDING t))) ls /\ t_id t = i) \/
  (exists j, In (LOp (OMsg (MJob j))) ls /\ j_id j = ji /\ j_state j = JPending).
(** some job or task message about job [ji] that can cancel tasks is being handled *)
Definition job_message_handled (ji : id) (ls : list label) : Prop :=
  exists m, In (LOp (OMsg m)) ls /\ job_of (OMsg m) = ji.
