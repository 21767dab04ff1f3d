{
 "claims": [
  {
   "property": "C01",
   "status": "proved",
   "theorems": [
    "C01_job_state_machine",
    "C01_new_jobs_are_pending",
    "C01_position_steps",
    "C01_only_delivered_messages_act"
   ],
   "note": "all executions of the interleaving machine"
  },
  {
   "property": "C02",
   "status": "proved",
   "theorems": [
    "C02_completed_forever",
    "C02_duplicate_submission_refuted"
   ],
   "note": "hypothesis: the submission message is delivered at most once; the refuted theorem shows it is needed"
  },
  {
   "property": "C03",
   "status": "proved",
   "theorems": [
    "C03_cancelled_or_failed_until_restart",
    "C03_restarts_are_requested"
   ],
   "note": "same hypothesis; restart requests come only from the API restart call"
  },
  {
   "property": "C04",
   "status": "proved",
   "theorems": [
    "C04_task_state_machine",
    "C04_finished_tasks_stay_finished",
    "C04_new_tasks",
    "C04_completed_to_cancelled_refuted"
   ],
   "note": "COMPLETED->CANCELLED race exhibited"
  },
  {
   "property": "C05",
   "status": "proved",
   "theorems": [
    "C05_refused_completions_change_nothing",
    "C05_only_awaited_completions_count",
    "C05_counted_once",
    "C05_duplicate_fails_job_refuted",
    "C05_waiting_task_fails_refuted"
   ],
   "note": "All executions, any interleaving. What a refused completion does not change is proved; that it can still fail the job or mark a PENDING task FAILED is a finding (refuted theorems)."
  },
  {
   "property": "C06",
   "status": "proved",
   "theorems": [
    "C06_every_step",
    "C06_task_with_effects",
    "C06_job_with_task",
    "C06_count_with_child"
   ],
   "note": "Every step of every execution, crash points and injected faults included. Finding: a failed transaction keeps the release of an each child (case 'leaks'), see C11_failed_commit_releases_refuted."
  },
  {
   "property": "C07",
   "status": "proved",
   "theorems": [
    "C07_next_task_is_started",
    "C28_last_task_finishes_job"
   ],
   "note": "any accepted completion of a top-level task, all job states/positions; next_instance shows that the next row is the job's task at the new position"
  },
  {
   "property": "C08",
   "status": "proved",
   "theorems": [
    "C08_progress_in_range",
    "C08_progress_grows",
    "C28_last_task_finishes_job"
   ],
   "note": "hundredths of a percent; rounding half away from zero"
  },
  {
   "property": "C09",
   "status": "proved",
   "theorems": [
    "C09_parallel_fans_out",
    "C09_C12_count_is_recordings",
    "C09_C12_count_at_least_completed",
    "C09_not_before_last_child",
    "C09_C12_last_child_completes_parents",
    "C09_skipped_child_counts_twice_refuted"
   ],
   "note": "Counting and 'not before' over every execution; 'completed by its last child' for the handling of that completion alone and without faults, in every reachable state, at any nesting. A skipped child's duplicated completion counts twice (finding)."
  },
  {
   "property": "C10",
   "status": "proved",
   "theorems": [
    "C10_each_fans_out",
    "C10_each_shares_commands",
    "C10_bad_list_fails_task"
   ],
   "note": "one child per element for every definition; evaluation with shared commands made explicit (see C61)"
  },
  {
   "property": "C11",
   "status": "proved",
   "theorems": [
    "C11_releases",
    "C11_one_release_per_completion",
    "C10_each_fans_out",
    "C11_failed_commit_releases_refuted"
   ],
   "note": "Executions without failed transactions and rescheduling of the each task; both exclusions are necessary (refuted theorem; duplicates of pending messages)."
  },
  {
   "property": "C12",
   "status": "proved",
   "theorems": [
    "C12_not_before_last_child",
    "C09_C12_count_is_recordings",
    "C09_C12_last_child_completes_parents",
    "C12_empty_list_hangs_refuted"
   ],
   "note": "As C09. 'Not before' assumes the list has the same length if it is evaluated again. The empty list is excluded (finding)."
  },
  {
   "property": "C13",
   "status": "proved",
   "theorems": [
    "C13_C25_bounds",
    "C13_chain_bounded",
    "C13_new_attempts"
   ],
   "note": "Bound on recorded attempts in store and messages, and on chains of retries in every execution."
  },
  {
   "property": "C14",
   "status": "proved",
   "theorems": [
    "C14_C15_failure_fails_job",
    "C14_retry",
    "C14_retry_evaluation_failure_refuted",
    "C14_retry_reevaluates_refuted",
    "C27_retry_hangs_refuted"
   ],
   "note": "the retried copy is re-evaluated; see note in DESIGN section 6 Retries evaluate an already evaluated task again (refuted corner). If the expressions of the retry cannot be evaluated, neither happens (C27_retry_hangs_refuted)."
  },
  {
   "property": "C15",
   "status": "proved",
   "theorems": [
    "C14_C15_failure_fails_job",
    "C15_subjob_refuted",
    "C16_nothing_active"
   ],
   "note": "top-level jobs; sub-job case is C22_subjob_failure_is_reported A failing SUB-job returns before cancelling its tasks (refutation witness)."
  },
  {
   "property": "C16",
   "status": "proved",
   "theorems": [
    "C16_cancel_stops_everything",
    "C16_nothing_active"
   ],
   "note": "requires node and sub-job rows to exist (reachable_workers)"
  },
  {
   "property": "C17",
   "status": "proved",
   "theorems": [
    "C17_late_start_is_cancelled"
   ],
   "note": ""
  },
  {
   "property": "C18",
   "status": "proved",
   "theorems": [
    "C18_start_report"
   ],
   "note": ""
  },
  {
   "property": "C19",
   "status": "proved",
   "theorems": [
    "C19_false_is_skipped",
    "C19_never_executed"
   ],
   "note": ""
  },
  {
   "property": "C20",
   "status": "proved",
   "theorems": [
    "C20_defaults_fill_only_gaps"
   ],
   "note": ""
  },
  {
   "property": "C21",
   "status": "proved",
   "theorems": [
    "C21_published_once_as_stored",
    "C21_published"
   ],
   "note": "any crash point and any fault pattern"
  },
  {
   "property": "C22",
   "status": "proved",
   "theorems": [
    "C22_subjob_failure_is_reported",
    "C22_subjob_is_created",
    "C28_last_task_finishes_job"
   ],
   "note": "scheduling half still to be added"
  },
  {
   "property": "C23",
   "status": "proved",
   "theorems": [
    "C23_detached_does_not_block",
    "C23_detached_secrets_refuted"
   ],
   "note": ""
  },
  {
   "property": "C24",
   "status": "proved",
   "theorems": [
    "C24_double_restart_refuted",
    "C24_restart",
    "C24_restart_request"
   ],
   "note": ""
  },
  {
   "property": "C25",
   "status": "proved",
   "theorems": [
    "C13_C25_bounds",
    "C25_redelivery"
   ],
   "note": ""
  },
  {
   "property": "C26",
   "status": "proved",
   "theorems": [
    "C26_handler_error_retries",
    "C26_job_error_fails_job"
   ],
   "note": ""
  },
  {
   "property": "C27",
   "status": "partial",
   "theorems": [
    "C27_first_task",
    "C27_later_tasks_refuted",
    "C27_parallel_child",
    "C27_each_child",
    "C27_retry_hangs_refuted",
    "C07_next_task_is_started",
    "C24_restart"
   ],
   "note": "Proved for the first task of a job, for children of parallel and each tasks; false for later top-level tasks, restarts and retries (witnesses and C27_retry_hangs_refuted)."
  },
  {
   "property": "C28",
   "status": "proved",
   "theorems": [
    "C28_last_task_finishes_job"
   ],
   "note": ""
  },
  {
   "property": "C29",
   "status": "proved",
   "theorems": [
    "C29_auto_delete",
    "C28_last_task_finishes_job",
    "C29_running_with_deletion_time_refuted"
   ],
   "note": "Every execution in which the submission is delivered at most once; with duplicates a running job can carry a deletion time (refuted theorem)."
  },
  {
   "property": "C30",
   "status": "proved",
   "theorems": [
    "C30_context_steps",
    "C30_completion_reaches_context",
    "C07_next_task_is_started"
   ],
   "note": "Every step of every execution."
  },
  {
   "property": "C31",
   "status": "proved",
   "theorems": [
    "C31_invisible_before_commit",
    "C31_all_or_nothing",
    "C31_ends_once",
    "C31_isolated",
    "C31_as_a_whole",
    "C31_terminates",
    "C31_nested_failure_kept_refuted",
    "C31_error_after_commit_refuted"
   ],
   "note": "Tx.v: any function, nesting, failure, panic, concurrent commits. Refutations bound what may be expected of nested failures and of returned errors."
  },
  {
   "property": "C32",
   "status": "proved",
   "theorems": [
    "C32_visibility",
    "C32_every_row"
   ],
   "note": "Listing.v: SQL of GetJobs read as a relation over users, roles, users_roles, jobs, jobs_perms, for every history of the store."
  },
  {
   "property": "C33",
   "status": "proved",
   "theorems": [
    "C33_job_pages",
    "C33_beyond_the_end",
    "C33_task_log_pages",
    "C33_job_log_pages",
    "C33_ties_refuted",
    "C33_wraparound_refuted",
    "C33_search_count_refuted",
    "C33_job_log_content",
    "C33_job_log_once"
   ],
   "note": "Holds when the sort keys of the rows differ, without a search term in logs, and while page*size fits 64 bits; the refutations are the other cases. GetScheduledJobs has the same shape as GetJobs."
  },
  {
   "property": "C34",
   "status": "proved",
   "theorems": [
    "C34_consistent",
    "C34_only_expired",
    "C34_live_jobs_stay",
    "C34_progress",
    "C34_interval",
    "C34_interval_step",
    "C34_time_zone_refuted",
    "C34_logs_of_running_job_refuted"
   ],
   "note": "Cleanup.v. Session time zone UTC; the refutations: a session east of UTC deletes early, log parts go by age alone."
  },
  {
   "property": "C35",
   "status": "proved",
   "theorems": [
    "C35_reads_back",
    "C35_column_is_not_the_plaintext",
    "C35_equal_values_are_not_recognisable",
    "C35_without_key_nothing_is_read",
    "C35_fails_closed",
    "C35_wrong_key_is_refused",
    "C35_older_plaintext_still_reads",
    "C35_no_secrets",
    "C35_context_is_plaintext_refuted",
    "C35_inside_a_transaction_refuted",
    "C35_read_in_a_transaction_refuted",
    "C35_keyless_marker_refuted"
   ],
   "note": "Secrets.v: base64 modelled and proved; AES-GCM, SHA-256 and the random source abstract, what is assumed of them is a premise (record gcm, rand_ok). The refutations document the context column, transaction handles and values starting with the marker."
  },
  {
   "property": "C36",
   "status": "proved",
   "theorems": [
    "C36_never_backwards",
    "C36_reports_latest",
    "C36_any_order",
    "C36_active",
    "C36_lost_first_refuted",
    "C36_skewed_clock_refuted"
   ],
   "note": "Heartbeat.v: any interleaving, duplication and failure, clocks that agree. Refutations: two first heartbeats at once lose one; a coordinator with a fast clock marks a live node OFFLINE."
  },
  {
   "property": "C37",
   "status": "proved",
   "theorems": [
    "C37_parts_are_the_log",
    "C37_a_tick_ships_everything",
    "C37_can_always_drain",
    "C37_delivered_without_faults",
    "C37_failed_part_is_lost_refuted"
   ],
   "note": "all interleavings of writes and ticks; with a failing broker publish the part is lost (refuted witness)"
  },
  {
   "property": "C38",
   "status": "proved",
   "theorems": [
    "C38_at_most_once",
    "C38_never_crosses_queues",
    "C38_in_order",
    "C38_contents_at_publish_time",
    "C38_history_only_grows",
    "C38_a_queue_stays",
    "C38_nothing_is_left",
    "C38_publish_waits_only_when_full",
    "C38_ended_gets_nothing",
    "C38_every_subscriber_hears_every_event",
    "C38_at_most_one_behind",
    "C38_distributed_is_published",
    "C38_events_go_to_matching_topics",
    "C38_first_use_race_refuted",
    "C38_delete_cuts_off_refuted",
    "C38_shared_contents_refuted",
    "C38_handler_calling_back_refuted"
   ],
   "note": "InMemBroker.v: all interleavings of concurrent publishes, subscriptions, deletions, handler calls and shutdown. Exactly once needs the queue to exist before it is used concurrently; the refutations show the race on first use, DeleteQueue and the shared log/progress pointers."
  },
  {
   "property": "C39",
   "status": "proved",
   "theorems": [
    "C39_clone_is_complete",
    "C39_clone_changes_nothing",
    "C39_changing_the_clone_leaves_the_original",
    "C39_original_reads_the_same",
    "C39_changing_the_original_leaves_the_clone",
    "C39_clone_returns",
    "C39_task_clone_equal",
    "C39_job_clone_equal",
    "C39_clone_forgets_refuted",
    "C39_shared_command_refuted",
    "C39_nil_panics_refuted"
   ],
   "note": "heap model with transcribed struct declarations and Clone tables; value model too; the documented exceptions and the shared string slices are shown real by the _refuted theorems"
  },
  {
   "property": "C40",
   "status": "proved",
   "theorems": [
    "C40_accepted_queues",
    "C40_scheduled_to_user_queue",
    "C40_plain_queue_kept",
    "C40_subjob_queue_refuted",
    "C40_templated_queue_refuted"
   ],
   "note": "all strings, all nestings validation reaches; the scheduler sends a regular task only to a user queue, at any cut point; the code violates the property through sub-job tasks and templated queue names (refuted witnesses)"
  },
  {
   "property": "C41",
   "status": "proved",
   "theorems": [
    "C41_wildcard",
    "C41_star_matches_everything",
    "C41_literal"
   ],
   "note": "all patterns and strings"
  },
  {
   "property": "C42",
   "status": "proved",
   "theorems": [
    "C42_every_template_is_pieces",
    "C42_fails_iff_an_expression_fails",
    "C42_template_means_what_it_says",
    "C42_text_unchanged",
    "C42_expression_unwrapped",
    "C42_bare_expression_kept",
    "C42_brace_at_the_end_refuted",
    "C42_brace_before_refuted",
    "C42_two_lines_refuted",
    "C42_empty_tag_refuted",
    "C42_blanks"
   ],
   "note": "Template.v: the regular expression with its backtracking preferences; evaluation of one expression is an arbitrary function. The refutations are templates read differently from what their author may expect."
  },
  {
   "property": "C43",
   "status": "proved",
   "theorems": [
    "C43_no_secret_remains",
    "C43_other_text_is_kept",
    "C43_secret_keys_hide_values",
    "C43_secret_keys_replaced",
    "C43_keys_are_kept",
    "C43_task_is_clean",
    "C43_job_is_clean",
    "C43_secrets_are_blotted",
    "C43_password_is_blotted",
    "C43_log_is_clean",
    "C43_log_fails_closed",
    "C43_default_keys",
    "C43_task_fails_open_refuted",
    "C43_uncovered_task_fields_refuted",
    "C43_uncovered_job_fields_refuted",
    "C43_bracket_secret_refuted",
    "C43_word_secret_refuted",
    "C43_split_log_refuted"
   ],
   "note": "Redact.v: any nesting, any set and order of secrets, any matchers. Certain for secrets that are not empty, contain no bracket and are not part of the word REDACTED; the refutations show why the others must be excluded, and list the uncovered fields."
  },
  {
   "property": "C44",
   "status": "proved",
   "theorems": [
    "C44_get_returns_latest_live_write",
    "C44_set_expiration",
    "C44_modify",
    "C44_other_keys",
    "C44_sweep_evicts_expired",
    "C44_list_agrees_with_get",
    "C44_expired_entry_revived_refuted",
    "C44_evictions_exact"
   ],
   "note": "SetExpiration/Modify revive an expired not yet swept entry (refuted witness)"
  },
  {
   "property": "C45",
   "status": "proved",
   "theorems": [
    "C45_inmemory_exclusive",
    "C45_postgres_exclusive",
    "C45_double_release_refuted"
   ],
   "note": "a holder releasing twice frees someone else's lock (refuted witness); otherwise all histories"
  },
  {
   "property": "C46",
   "status": "proved",
   "theorems": [
    "C46_no_middleware",
    "C46_first_is_outermost",
    "C46_hooks_order",
    "C46_stop",
    "C46_compose"
   ],
   "note": ""
  },
  {
   "property": "C47",
   "status": "proved",
   "theorems": [
    "C47_attempts",
    "C47_success_iff",
    "C47_malformed_url_panics_refuted",
    "C47_job_webhooks_fire",
    "C47_task_webhooks_fire",
    "C47_no_webhook_otherwise"
   ],
   "note": "a malformed URL panics (refuted witness)"
  },
  {
   "property": "C48",
   "status": "proved",
   "theorems": [
    "C48_state_order",
    "C48_at_most_once",
    "C48_wrong_state_rejected",
    "C48_registered_before_start",
    "C48_terminate_completes",
    "C48_terminate_after_signal_hangs_refuted",
    "C48_submit",
    "C48_registered_once"
   ],
   "note": "Terminate after a signal shutdown blocks (refuted witness)"
  },
  {
   "property": "C49",
   "status": "proved",
   "theorems": [
    "C49_dispatch",
    "C49_unmount_by_the_mounter",
    "C49_unmount_once",
    "C49_register",
    "C49_bind",
    "C49_letter_case_refuted",
    "C49_tmpfs"
   ],
   "note": "any interleaving of concurrent mounts and unmounts; the allow-list is compared up to letter case (refuted witness)"
  },
  {
   "property": "C50",
   "status": "proved",
   "theorems": [
    "C50_accepted_iff_valid",
    "C50_machine_takes_it",
    "C50_converted",
    "C50_subjob_tasks_refuted",
    "C50_task_converted"
   ],
   "note": "acceptance is equivalent to the specification on the resulting job; sub-job tasks are outside it (refuted witness)"
  },
  {
   "property": "C51",
   "status": "proved",
   "theorems": [
    "C51_one_entry_iff_active",
    "C51_one_job_per_tick",
    "C51_at_most_one",
    "C51_others_untouched",
    "C51_duplicate_activation_refuted",
    "C51_unsaid_pause_refuted",
    "C51_defaults_refuted",
    "C51_bad_expression_blocks_start_refuted",
    "C51_delete_takes_instances_refuted"
   ],
   "note": "Scheduler event handlers, cron registry and locks. Refutations record what the code does on duplicate activations, unpublished pauses, dropped defaults, unparsable expressions."
  },
  {
   "property": "C52",
   "status": "proved",
   "theorems": [
    "C52_one_outcome",
    "C52_outcome_content",
    "C52_limits",
    "C52_worker_is_env",
    "C52_swallowing_middleware_refuted",
    "C52_count",
    "C52_cancel",
    "C52_cancel_reaches",
    "C52_duplicate_uncancellable_refuted"
   ],
   "note": "any chain of well-behaved middlewares (may change or refuse the task, keep its state); a middleware that swallows the call leaves no outcome (refuted witness); C52_worker_is_env ties this worker to the one assumed by the system model"
  },
  {
   "property": "C53",
   "status": "proved",
   "theorems": [
    "C53_up_iff_all_succeed",
    "C53_one_failure_is_down",
    "C53_registration"
   ],
   "note": "any iteration order of the map of checks"
  },
  {
   "property": "C54",
   "status": "proved",
   "theorems": [
    "C54_docker",
    "C54_podman",
    "C54_shell",
    "C54_follows",
    "C54_torkdir_leak_refuted",
    "C54_docker_environment",
    "C54_podman_environment",
    "C54_sidecars",
    "C54_shell_refuses"
   ],
   "note": "any failure pattern of the engine, mounter and OS calls; a volume leaks when container creation fails after its private volume was made (refuted witness)"
  },
  {
   "property": "C55",
   "status": "proved",
   "theorems": [
    "C55_configuration",
    "C55_exactly_the_configured",
    "C55_only_when_starting",
    "C55_colliding_aliases_refuted"
   ],
   "note": "any order of the map walk; with two variables under one alias the result depends on it (refuted witness)"
  },
  {
   "property": "C56",
   "status": "proved",
   "theorems": [
    "C56_cancel",
    "C56_cancel_iff",
    "C56_restart",
    "C56_restart_iff",
    "C56_pause",
    "C56_resume",
    "C56_page",
    "C56_sizes",
    "C56_clamped",
    "C56_delete_queue",
    "C56_create_user",
    "C56_failed_submission_leaves_job_refuted"
   ],
   "note": "ApiGuards.v, Scheduled.v. The refutation: a submission whose announcement fails is refused but its job stays stored."
  },
  {
   "property": "C57",
   "status": "proved",
   "theorems": [
    "C57_panics_only_there",
    "fuel_suffices",
    "C57_empty_subjob_refuted",
    "C57_cancel_subjob_refuted"
   ],
   "note": "no panic anywhere else than the two sites"
  },
  {
   "property": "C58",
   "status": "proved",
   "theorems": [
    "C58_progress_report"
   ],
   "note": ""
  },
  {
   "property": "C59",
   "status": "proved",
   "theorems": [
    "C59_job_completes",
    "C59_each_once_in_order",
    "C59_then_idle",
    "C59_is_an_execution"
   ],
   "note": "One order for all queues (FIFO); job of tasks without children, alone in the deployment; templates evaluate; queues served by workers. Progress reports and clock arbitrary."
  },
  {
   "property": "C60",
   "status": "proved",
   "theorems": [
    "C60_other_jobs_untouched",
    "C60_other_tasks_untouched",
    "C60_new_tasks_belong_to_the_job"
   ],
   "note": ""
  },
  {
   "property": "C61",
   "status": "partial",
   "theorems": [
    "C10_each_fans_out",
    "C10_each_shares_commands",
    "C10_first_command_for_all_refuted"
   ],
   "note": "proved for definitions whose commands contain no templates; false otherwise: all children get the first element's command (finding)"
  },
  {
   "property": "C62",
   "status": "proved",
   "theorems": [
    "C62_basic_auth_protects",
    "C62_key_auth_protects",
    "C62_body_limit",
    "C62_disabled_group",
    "C62_credentials_pass",
    "C62_no_empty_key",
    "C62_both_with_one_header_refuted",
    "C62_disabled_user_refuted"
   ],
   "note": "The echo library's middlewares and router are modelled from their documented behaviour (the router as any choice among matching routes). Custom middlewares may do anything except start an endpoint other than through next. Two expectations are refuted: a client with a single Authorization header cannot satisfy basic and key authentication together, and a disabled user is let in."
  },
  {
   "property": "C63",
   "status": "proved",
   "theorems": [
    "C63_lookup_is_unambiguous",
    "C63_existing_accounts_are_safe",
    "C63_only_with_the_password",
    "C63_the_password_opens",
    "C63_password_stays_secret",
    "C63_password_as_sent_refuted",
    "C63_colon_in_name_refuted",
    "C63_disabled_is_not_stored_refuted"
   ],
   "note": "bcrypt is idealised by a hypothesis (a hash is matched by its password only, the empty hash by none). Refuted expectations: a password with surrounding blanks does not open the account it created, a user name with a colon can never log in, disabled is not stored."
  },
  {
   "property": "C64",
   "status": "proved",
   "theorems": [
    "C64_coordinator_serves",
    "C64_coordinator_only_its_own",
    "C64_worker_only_work",
    "C64_private_queues",
    "C64_worker_concurrency"
   ],
   "note": ""
  },
  {
   "property": "C65",
   "status": "proved",
   "theorems": [
    "C65_task_round_trip",
    "C65_task_exact",
    "C65_second_trip_exact",
    "C65_task_injective",
    "C65_job_round_trip",
    "C65_no_password_hash"
   ],
   "note": "JSON at the level of trees: encoding/json's text form is assumed to be read back as the tree it came from, for valid UTF-8. Nil and empty slices and maps are identified; nested decoding has a depth bound and the theorems hold for every large enough one."
  },
  {
   "property": "C66",
   "status": "proved",
   "theorems": [
    "C66_task_created",
    "C66_task_read",
    "C66_task_updated",
    "C66_task_updates_are_whole",
    "C66_task_creation_is_whole",
    "C66_job_created",
    "C66_job_read",
    "C66_job_updated",
    "C66_job_updates_are_whole",
    "C66_probe_is_not_stored_refuted",
    "C66_zero_in_context_refuted"
   ],
   "note": "SQL statements as positional bindings over a typed schema (varchar lengths in bytes, not null, int4, zero characters, keys). Job permissions and executions come from other tables and are parameters; encryption of secrets is any pair of functions that reads back what it wrote (C35). The last two *_whole theorems connect the tables of the coordinator model with the SQL."
  },
  {
   "property": "C67",
   "status": "proved",
   "theorems": [
    "C67_every_message_is_somewhere",
    "C67_task_handled_at_most_once",
    "C67_handlers_get_what_was_published",
    "C67_acknowledged_means_dealt_with",
    "C67_rejected_means_failed",
    "C67_no_silent_loss",
    "C67_progress",
    "C67_unreadable_message_blocks_its_consumer",
    "C67_jobs_handled_twice_refuted",
    "C67_failed_forward_loses_the_task_refuted",
    "C67_publish_before_subscribe_is_lost_refuted",
    "C67_what_is_published_is_readable",
    "C67_task_progress_only"
   ],
   "note": "The server follows the AMQP rules listed at the head of Rabbit.v; order of delivery left open. The *_refuted theorems are histories in which stronger claims fail: a job handled twice, a task lost because its forwarding failed, a task published before its queue exists."
  },
  {
   "property": "C68",
   "status": "proved",
   "theorems": [
    "C68_shutdown_waits_for_the_coordinator",
    "C68_shutdown_completes_without_losses",
    "C68_shutdown_hangs_after_a_reconnect",
    "C68_event_subscription_ends",
    "C68_twenty_attempts"
   ],
   "note": "The third theorem is the negative half: re-subscription leaves the old entry in the subscriptions map, whose goroutine is gone (or blocked), and Shutdown's send on its cancel channel has no receiver."
  },
  {
   "property": "C69",
   "status": "proved",
   "theorems": [
    "C69_rabbit_selects_at_least",
    "C69_prefix_patterns_exactly",
    "C69_plain_patterns",
    "C69_star_inside_a_word_refuted"
   ],
   "note": "Topic matching of the server as an inductive rule. The refuted theorem shows the two differences: a star inside a word, and job.* selecting job."
  },
  {
   "property": "C70",
   "status": "proved",
   "theorems": [
    "C70_events",
    "C70_wait",
    "C70_content",
    "C70_reported",
    "C70_otherwise_error",
    "C70_no_crash",
    "C70_one_failure_event_refuted",
    "C70_crash_refuted",
    "C70_other_client_refuted",
    "C70_one_document_refuted",
    "C70_error_status"
   ],
   "note": "C70_no_crash needs the hypothesis that the job ends at most once; the refuted theorems show an execution without duplicate deliveries in which it ends twice (two tasks of a parallel task fail) and the coordinator panics, and that a late event is written to another client's response."
  },
  {
   "property": "C71",
   "status": "proved",
   "theorems": [
    "C71_in_use",
    "C71_prune",
    "C71_prune_complete",
    "C71_forced",
    "C71_served",
    "C71_credentials",
    "C71_pulled_once",
    "C71_one_answer",
    "C71_shared_credentials_refuted",
    "C71_foreign_image_refuted",
    "C71_long_task_refuted",
    "C71_stale_refuted",
    "C71_forced_foreign_refuted"
   ],
   "note": "parseRef and the configured credentials are parameters; the refuted theorems state what does not hold (credentials are not rechecked, host images are pruned, the age counts from the request, an image removed by others is never pulled again)."
  },
  {
   "property": "C72",
   "status": "proved",
   "theorems": [
    "C72_every_job_completes",
    "C72_nothing_fails",
    "C72_is_an_execution",
    "C72_no_tasks_refuted",
    "C72_no_elements_refuted",
    "C72_unregistered_refuted"
   ],
   "note": "handlers run one at a time (the interleaving of handlers is what C27/C61 are about); messages are consumed exactly once; each tasks have elements, parallel tasks and sub-jobs have tasks, templates evaluate (submittable in SpecRun.v); the nodes workers name are registered."
  },
  {
   "property": "C73",
   "status": "proved",
   "theorems": [
    "C73_handed_once",
    "C73_nothing_else",
    "C73_exactly_once"
   ],
   "note": "premises of C72; executions are counted as messages on worker queues, each consumed once in these runs."
  },
  {
   "property": "C74",
   "status": "proved",
   "theorems": [
    "C74_command",
    "C74_script",
    "C74_environment",
    "C74_files",
    "C74_nothing_else",
    "C74_mounts_networks",
    "C74_confined",
    "C74_limits",
    "C74_helpers",
    "C74_accepted",
    "C74_script_with_command_refuted",
    "C74_image_command_refuted",
    "C74_script_replaced_refuted",
    "C74_limit_overflow_refuted"
   ],
   "note": "command lines: for tasks with a command or a script, not both; the readings left out are refuted by witnesses (a script is ignored if there is a command; a task that only names an image runs a file that does not exist; a file of the task can replace its script; a limit out of the counter's range wraps around)."
  },
  {
   "property": "C75",
   "status": "proved",
   "theorems": [
    "C75_log_complete",
    "C75_log_cut",
    "C75_error_text",
    "C75_error_text_beginnings",
    "C75_result",
    "C75_long_frame_refuted",
    "C75_short_read_refuted",
    "C75_error_text_refuted"
   ],
   "note": "the unconditional readings are false: longer frames are cut, a short read of the connection destroys the rest of the log, the error text loses bytes beyond 512 (witnesses)."
  },
  {
   "property": "C76",
   "status": "proved",
   "theorems": [
    "C76_command",
    "C76_environment",
    "C76_identity",
    "C76_files",
    "C76_starts",
    "C76_result",
    "C76_cleanup",
    "C76_no_trace",
    "C76_other_user_never_runs",
    "C76_group_after_user",
    "C76_subdirectory_fails",
    "C76_escape_refuted",
    "C76_own_path_refuted",
    "C76_reserved_refuted",
    "C76_result_file_refuted",
    "C76_cancel_refuted"
   ],
   "note": "unconditional readings are false: file names with .. leave the directory and survive it, the task's PATH and HOME are ignored, reserved names are replaced, a cancelled script runs on, a configured user other than root or the worker's never works (witnesses and theorems)."
  },
  {
   "property": "C77",
   "status": "proved",
   "theorems": [
    "C77_arguments",
    "C77_command",
    "C77_environment",
    "C77_files",
    "C77_removed",
    "C77_result",
    "C77_host_network",
    "C77_limits_ignored",
    "C77_escape_refuted",
    "C77_option_image_refuted",
    "C77_host_namespace_refuted",
    "C77_words_refuted",
    "C77_own_workdir_refuted"
   ],
   "note": "unconditional readings are false: see the refuted witnesses (file names with .., image named like an option, host network by another name, words of a command, own working directory); limits, GPUs and registry are ignored."
  },
  {
   "property": "C78",
   "status": "proved",
   "theorems": [
    "C78_reference",
    "C78_accepted",
    "C78_right_registry",
    "C78_only_this_registry",
    "C78_stored_login",
    "C78_pull_with_login",
    "C78_task_credentials",
    "C78_short_name_refuted",
    "C78_hub_login_refuted",
    "C78_token_refuted",
    "C78_parsed",
    "C78_pull_with_helper"
   ],
   "note": "for a name the engine does not take for a host the claim is false (C78_short_name_refuted); the Docker Hub login is never used and identity tokens are sent as a password (refuted witnesses). A stored password must not begin or end with a NUL byte."
  },
  {
   "property": "C79",
   "status": "proved",
   "theorems": [
    "C79_which_file",
    "C79_environment_wins",
    "C79_file_value",
    "C79_defaults",
    "C79_lists",
    "C79_only_tork",
    "C79_any_order",
    "C79_unreachable",
    "C79_underscore_refuted",
    "C79_home_refuted",
    "C79_empty_list_refuted",
    "C79_clash_refuted"
   ],
   "note": "for properties whose names have no underscore or capital (others cannot be set from the environment: C79_unreachable) and environments in which no variable names a table another one names an entry of; ~/tork/config.toml is never found, an empty list is read as one text (refuted witnesses)."
  },
  {
   "property": "C80",
   "status": "proved",
   "theorems": [
    "C80_only_what_was_read",
    "C80_on_change",
    "C80_up_to_date",
    "C80_stored",
    "C80_gone",
    "C80_refused_refuted",
    "C80_nan_refuted"
   ],
   "note": "for files that do not hold the text NaN (C80_nan_refuted); a publication the broker refused is not repeated (C80_refused_refuted)."
  },
  {
   "property": "C81",
   "status": "proved",
   "theorems": [
    "C81_ready",
    "C81_asked_until_ready",
    "C81_not_ready",
    "C81_asks_the_sidecar",
    "C81_network",
    "C81_elsewhere_refuted"
   ],
   "note": "requests stay local only if the path begins with a slash; nothing checks that it does (C81_elsewhere_refuted)."
  },
  {
   "property": "C82",
   "status": "proved",
   "theorems": [
    "C82_never_stuck",
    "C82_all_finish",
    "C82_within_limit",
    "C82_single_connection_refuted",
    "C82_pool_exhausted_refuted",
    "C82_locks_exclude",
    "C82_one_writer",
    "C82_inserts_do_not_wait"
   ],
   "note": "DeleteJob, DeleteScheduledJob and the expunging of expired jobs (which lock many rows in PostgreSQL's order) are not modelled. The two _refuted theorems show that the bound on the pool size is needed and tight."
  },
  {
   "property": "C83",
   "status": "proved",
   "theorems": [
    "C83_comes_back",
    "C83_success_is_real",
    "C83_connections_are_open",
    "C83_shutdown_closes",
    "C83_deleted_queue_refuted",
    "C83_deleted_queue_reached",
    "C83_others_in_between_refuted",
    "C83_one_closed_slot_refuted",
    "C83_shutdown_leaks_refuted"
   ],
   "note": "attempts are taken one after the other; with other users of the broker in between an exclusive queue can be missed every time (C83_others_in_between_refuted); a deleted queue never comes back (C83_deleted_queue_refuted); a use during Shutdown leaks a connection (C83_shutdown_leaks_refuted)."
  },
  {
   "property": "C84",
   "status": "proved",
   "theorems": [
    "C84_completed_as_reported",
    "C84_results_come_from_workers",
    "C84_context_entries_are_reported",
    "C84_composite_run_by_worker_refuted"
   ],
   "note": "sub-job tasks: the coordinator reports their completion itself (C14). A composite task's own completion is made by the coordinator when its last child completed (C09, C12)."
  },
  {
   "property": "C85",
   "status": "proved",
   "theorems": [
    "C85_subjob_task_result",
    "C85_context_entries"
   ],
   "note": "the sub-job was COMPLETED at some earlier time: a duplicated submission message can start a completed job again (C02)"
  },
  {
   "property": "C86",
   "status": "proved",
   "theorems": [
    "C86_what_is_read",
    "C86_log_reads_back",
    "C86_ascii_log_reads_back",
    "C86_through_json",
    "C86_text_is_utf8"
   ],
   "note": "refuted corners: C86_cut_character_refuted, C86_second_delivery_refuted, C86_second_run_refuted. Postgres' refusal of text that is not UTF-8 or has a NUL, and json.Marshal's U+FFFD, are part of the model."
  },
  {
   "property": "C87",
   "status": "proved",
   "theorems": [
    "C87_reads_are_redacted",
    "C87_summaries_ignore_secrets",
    "C87_summary_is_faithful",
    "C87_scheduled_summary_is_faithful"
   ],
   "note": "violations: C87_waiting_answer_shows_secrets_refuted, C87_scheduled_job_shows_secrets_refuted, C87_summaries_show_inputs_refuted; covered fields are those of C43"
  },
  {
   "property": "C88",
   "status": "proved",
   "theorems": [
    "C88_query_means",
    "C88_every_query",
    "C88_spacing",
    "C88_job_search"
   ],
   "note": "C88_log_search_drops_tags_refuted, C88_empty_tag_refuted: corners. White space outside ASCII is not modelled."
  },
  {
   "property": "C89",
   "status": "proved",
   "theorems": [
    "C89_logged_is_a_prefix",
    "C89_podman_logs_everything",
    "C89_complete_if_copied",
    "C89_read_is_a_prefix"
   ],
   "note": "C89_tail_is_lost_refuted: with Docker and the shell a successful run can lose the tail, or all, of its output."
  },
  {
   "property": "C90",
   "status": "proved",
   "theorems": [
    "C90_unpack",
    "C90_files_arrive",
    "C90_task_files",
    "C90_output_arrives",
    "C90_tree_arrives"
   ],
   "note": "Names that need PAX records are not modelled. C90_slash_name_refuted: a non-empty file with a name ending in '/' cannot be sent."
  },
  {
   "property": "C91",
   "status": "proved",
   "theorems": [
    "C91_higher_priority_first",
    "C91_priority_of_a_task",
    "C91_never_stuck",
    "C91_in_order_otherwise"
   ],
   "note": "The hand-out rule is RabbitMQ's documented one. C91_quorum_ignores_priority_refuted, C91_starvation_refuted: what does not hold."
  },
  {
   "property": "C92",
   "status": "proved",
   "theorems": [
    "C92_volume_is_private",
    "C92_no_sharing",
    "C92_others_untouched",
    "C92_nothing_left",
    "C92_run_leaves_nothing"
   ],
   "note": "The names drawn (uuid, os.MkdirTemp) are assumed new and not used by others. C92_leak_refuted: a failed removal leaks."
  },
  {
   "property": "C93",
   "status": "proved",
   "theorems": [
    "C93_outcomes_carry_what_was_received",
    "C93_outcome_independent",
    "C93_started_stores_nothing",
    "C93_started_carries_the_values"
   ],
   "note": "What does not hold is refuted: the start report itself carries the values (C93_started_carries_the_values), and once a start report is redelivered the values are stored with a retry (C93_stored_refuted)."
  },
  {
   "property": "C94",
   "status": "proved",
   "theorems": [
    "C94_powers",
    "C94_bind_refused",
    "C94_defaults",
    "C94_redaction",
    "C94_unknown_refused",
    "C94_locks_follow_the_store",
    "C94_every_queue_consumed",
    "C94_start"
   ],
   "note": "What does not hold is refuted: C94_default_locks_not_shared_refuted, C94_provider_needs_locker_refuted, C94_failed_start_leaves_worker_refuted, C94_builtin_mounter_refuted, C94_empty_sources_refuted, C94_guessing_not_limited_refuted, C94_idle_worker_refuted."
  },
  {
   "property": "C95",
   "status": "proved",
   "theorems": [
    "C95_stopped_handlers",
    "C95_returns",
    "C95_finishes_when_handlers_do"
   ],
   "note": "What does not hold is refuted: C95_worker_starts_task_refuted, C95_reports_after_stop_refuted, C95_events_block_refuted, C95_deadline_refuted."
  },
  {
   "property": "C96",
   "status": "proved",
   "theorems": [
    "C96_metrics",
    "C96_all_or_nothing",
    "C96_quiet",
    "C96_cpu",
    "C96_nodes_agree",
    "C96_queues",
    "C96_figures",
    "C96_idle"
   ],
   "note": "What does not hold is refuted: C96_snapshot_refuted, C96_online_refuted, C96_time_zone_refuted, C96_other_hosts_refuted, C96_failure_as_empty_refuted, C96_zero_means_idle_refuted, C96_counted_twice_refuted, C96_gone_counted_refuted, C96_size_means_two_things_refuted."
  },
  {
   "property": "C97",
   "status": "proved",
   "theorems": [
    "C97_heartbeats_keep_coming",
    "C97_live_node",
    "C97_dead_node",
    "C97_ended",
    "C97_not_too_often"
   ],
   "note": "What does not hold is refuted: C97_one_lost_refuted, C97_stop_waits_refuted, C97_defers_pile_up_refuted."
  },
  {
   "property": "C98",
   "status": "proved",
   "theorems": [
    "C98_answers",
    "C98_image_there",
    "C98_stays",
    "C98_every_call_ends",
    "C98_never_stuck"
   ],
   "note": "What does not hold is refuted: C98_removed_refuted, C98_container_name_refuted, C98_waits_for_others_refuted."
  },
  {
   "property": "C99",
   "status": "proved",
   "theorems": [
    "C99_created",
    "C99_read",
    "C99_active",
    "C99_updated",
    "C99_instances_fit"
   ],
   "note": "What does not hold is refuted: C99_long_name_refuted, C99_secret_zero_refuted."
  },
  {
   "property": "C100",
   "status": "proved",
   "theorems": [
    "C100_read_back",
    "C100_permissions",
    "C100_subjob_id_refuted"
   ],
   "note": "Redaction is C43's; the id of a sub-job is lost (C100_subjob_id_refuted), so documents that send one are excluded by a premise."
  },
  {
   "property": "C101",
   "status": "proved",
   "theorems": [
    "C101_users_found",
    "C101_roles_found",
    "C101_roles_of",
    "C101_user_accepted",
    "C101_assign_accepted",
    "C101_role_accepted",
    "C101_permission_by_name",
    "C101_permission_by_id_refuted",
    "C101_slug_refuted"
   ],
   "note": "A permission that names a role by its id passes validation and cannot be stored: C101_permission_by_id_refuted."
  },
  {
   "property": "C102",
   "status": "proved",
   "theorems": [
    "C102_read_back",
    "C102_instances_carry",
    "C102_defaults_refuted",
    "C102_same_as_submitted"
   ],
   "note": "Defaults do not reach the jobs made at a tick: C102_defaults_refuted. A sub-job id in the document is not kept (C100_subjob_id_refuted), hence the premise."
  }
 ]
}