{"id": "C01", "title": "Job state machine", "statement": "Whatever messages arrive, in whatever order, duplicated, and however coordinator work interleaves or crashes, the state of a stored job only ever moves along: PENDING->SCHEDULED (job start), SCHEDULED->RUNNING (first task start), SCHEDULED/RUNNING->COMPLETED|FAILED|CANCELLED, FAILED/CANCELLED->RUNNING (restart). Any other edge can only be produced by (re)delivering the PENDING job message, which restarts the job from any state.", "quantifier": "all job messages and task messages with arbitrary contents, all interleavings of handler steps at datastore-operation granularity, all crash points and datastore/broker faults, all jobs in the store", "why_tests_cant": "the set of message contents x store states x interleavings x crash points is infinite; tests fire a handful of handlers in isolation", "anchors": ["internal/coordinator/handlers/job.go:jobHandler.handle", "internal/coordinator/handlers/job.go:startJob", "internal/coordinator/handlers/cancel.go:handle", "internal/coordinator/handlers/started.go:handle", "internal/coordinator/handlers/error.go:handle", "internal/coordinator/coordinator.go:jobHandler"]}
{"id": "C02", "title": "Finished job stays finished", "statement": "Once GET /jobs/{id} reports COMPLETED it reports COMPLETED (with the same result, error and completion time) forever, as long as the job's initial PENDING message is not delivered a second time; a duplicated PENDING delivery restarts a finished job (documented violation).", "quantifier": "all histories of deliveries, duplicates, API calls, crashes", "why_tests_cant": "needs every continuation of every history, not one schedule", "anchors": ["internal/coordinator/handlers/job.go:completeJob", "internal/coordinator/handlers/job.go:startJob", "internal/coordinator/handlers/job.go:failJob", "internal/coordinator/handlers/cancel.go:handle"]}
{"id": "C03", "title": "Cancelled job is never completed or failed behind the user's back", "statement": "After a cancellation took effect, the job stays CANCELLED until a user-requested restart: late task completions, failures, starts or progress reports never turn it into COMPLETED, FAILED or RUNNING.", "quantifier": "all histories without restart/first-start messages after the cancellation", "why_tests_cant": "races between cancel and late worker messages are schedules that unit tests do not enumerate", "anchors": ["internal/coordinator/handlers/cancel.go", "internal/coordinator/handlers/job.go:failJob", "internal/coordinator/handlers/job.go:completeJob", "internal/coordinator/handlers/job.go:markJobAsRunning"]}
{"id": "C04", "title": "Task state machine", "statement": "A stored task only moves: CREATED->PENDING, any->SCHEDULED/RUNNING/SKIPPED by handling a pending-queue message for it, SCHEDULED->RUNNING by a start report, RUNNING/SCHEDULED/SKIPPED->COMPLETED/SKIPPED by a completion, active->FAILED by a failure, active->CANCELLED by cancellation or job failure. In particular COMPLETED, FAILED and CANCELLED tasks are only ever left by (re)delivery of a pending message.", "quantifier": "all messages, interleavings, crash points and all stored tasks", "why_tests_cant": "requires covering every guard in every handler under every interleaving", "anchors": ["internal/coordinator/handlers/completed.go", "internal/coordinator/handlers/error.go", "internal/coordinator/handlers/started.go", "internal/coordinator/handlers/cancel.go", "internal/coordinator/handlers/pending.go", "internal/coordinator/scheduler/scheduler.go"]}
{"id": "C05", "title": "A task completion is counted once", "statement": "Delivering the completion of a task that is already COMPLETED, FAILED, CANCELLED, PENDING, CREATED or STOPPED changes neither the job's position, progress and context nor its parent's completion count nor the task.", "quantifier": "all stored tasks, all completion messages including duplicates and forged contents, all store states", "why_tests_cant": "the guard must hold for each of the three completion paths and every state", "anchors": ["internal/coordinator/handlers/completed.go:completeTopLevelTask", "internal/coordinator/handlers/completed.go:completeEachTask", "internal/coordinator/handlers/completed.go:completeParallelTask"]}
{"id": "C06", "title": "Completion is atomic", "statement": "Recording a task completion updates the task (state, result, completion time) together with the job's position/progress/context or the parent's completion count: at no fault or crash point is one visible without the other, and on failure neither is.", "quantifier": "all fault points (any datastore call inside or the commit failing), all stores and messages", "why_tests_cant": "requires failing every operation inside the transaction for all states", "anchors": ["internal/coordinator/handlers/completed.go", "datastore/postgres/postgres.go:WithTx"]}
{"id": "C07", "title": "Tasks run in order, none skipped, none repeated", "statement": "When a top-level task completes, the next task created is exactly the job's task at the new position, the position grows by exactly one, and the job is only declared COMPLETED when the position has passed the last task; every earlier task was completed or skipped.", "quantifier": "all jobs with any number of tasks, all completions, every execution of a job under cooperative workers", "why_tests_cant": "holds by induction over the number of tasks", "anchors": ["internal/coordinator/handlers/completed.go:completeTopLevelTask", "internal/coordinator/handlers/job.go:startJob"]}
{"id": "C08", "title": "Job progress and position bounds", "statement": "A job's reported progress after a task completion is round(100*position/taskCount, 2 decimals), lies in [0,100] while position<=taskCount, never decreases along the completions, and is 100 when the last task completes.", "quantifier": "all positions and task counts", "why_tests_cant": "arithmetic over unbounded integers", "anchors": ["internal/coordinator/handlers/completed.go:completeTopLevelTask", "internal/coordinator/handlers/progress.go"]}
{"id": "C09", "title": "Parallel task completes exactly with its last child", "statement": "The completion count of a parallel task equals the number of its children that completed; the parallel task itself is completed by the handling of the child completion that makes the count reach the number of its tasks, and not before.", "quantifier": "all parallel widths, completion orders, duplicates of completion messages, interleavings", "why_tests_cant": "unbounded fan-out and all interleavings", "anchors": ["internal/coordinator/handlers/completed.go:completeParallelTask", "internal/coordinator/scheduler/scheduler.go:scheduleParallelTask"]}
{"id": "C10", "title": "Each task fans out one child per list element", "statement": "Scheduling an each task creates exactly one child per element, in order, all linked to the parent and its job; with concurrency k>0 exactly the first min(k,n) are PENDING and published and the remaining are CREATED and unpublished; with k=0 all are published. The parent becomes RUNNING with size n.", "quantifier": "all lists of any length, all concurrency values, all each definitions", "why_tests_cant": "unbounded list length", "anchors": ["internal/coordinator/scheduler/scheduler.go:scheduleEachTask"]}
{"id": "C11", "title": "Each concurrency limit is respected", "statement": "With concurrency k>0 the number of children of an each task that have been released (published) and not yet completed never exceeds k, and a completion releases at most one further child, so that after c completions exactly min(n,k+c) children have been released.", "quantifier": "all list sizes n, all k, all completion orders", "why_tests_cant": "induction over an unbounded number of completions", "anchors": ["internal/coordinator/handlers/completed.go:completeEachTask", "internal/coordinator/scheduler/scheduler.go:scheduleEachTask"]}
{"id": "C12", "title": "Each task completes exactly with its last child", "statement": "An each task over a non-empty list is completed by the completion of its last child and not before. An each task over an empty list never completes (documented violation: the job hangs).", "quantifier": "all sizes and completion orders", "why_tests_cant": "unbounded sizes; the empty-list hang is a liveness gap tests do not look for", "anchors": ["internal/coordinator/handlers/completed.go:completeEachTask", "internal/coordinator/scheduler/scheduler.go:scheduleEachTask"]}
{"id": "C13", "title": "Retries are bounded by the configured limit", "statement": "No task ever has more recorded attempts than its retry limit; along a chain of retries of one task at most `limit` retries are created (limit+1 executions), whatever the job does.", "quantifier": "all retry limits, all failure histories with each failure reported once", "why_tests_cant": "induction over failure histories", "anchors": ["internal/coordinator/handlers/error.go:handle", "internal/coordinator/scheduler/scheduler.go:scheduleRegularTask"]}
{"id": "C14", "title": "A failure either retries or fails the job", "statement": "Handling a task failure marks the task FAILED with its error if it was active, and then, if the job is live and attempts remain, creates exactly one fresh PENDING copy (same definition, same parent and position, attempts+1, no error) and publishes it; otherwise it creates no task and the job is failed.", "quantifier": "all tasks, jobs, store states", "why_tests_cant": "case split over all states and retry configurations", "anchors": ["internal/coordinator/handlers/error.go:handle"]}
{"id": "C15", "title": "Failing a job stops its other work", "statement": "When a top-level job fails, every active task of the job becomes CANCELLED, each one running on a node gets a cancellation sent to that node, each attached sub-job gets cancelled, tasks of other jobs are untouched, and job.failed is published. (For a sub-job the code returns before cancelling: documented violation.)", "quantifier": "all jobs with any number of active tasks", "why_tests_cant": "unbounded number of tasks and states", "anchors": ["internal/coordinator/handlers/job.go:failJob", "internal/coordinator/handlers/cancel.go:cancelActiveTasks"]}
{"id": "C16", "title": "Cancelling a job stops all of its work", "statement": "After the cancel of a job is handled successfully: the job is CANCELLED iff it was SCHEDULED/RUNNING, no task of the job is active, every previously active task running on a node had a cancellation published to the node's private queue, every attached sub-job had a cancel published, its parent job (if any) had a cancel published, and no other job's tasks changed.", "quantifier": "all job/task trees of any size", "why_tests_cant": "unbounded number of tasks, sub-jobs and nodes", "anchors": ["internal/coordinator/handlers/cancel.go"]}
{"id": "C17", "title": "A task started after its job ended is cancelled at the node", "statement": "When a start report arrives for a task whose job is no longer SCHEDULED/RUNNING, exactly one message, a cancellation of that task, is published to the reporting node's queue and no stored task or job changes.", "quantifier": "all jobs, tasks, nodes and states", "why_tests_cant": "all states and races", "anchors": ["internal/coordinator/handlers/started.go:handle"]}
{"id": "C18", "title": "Out-of-order start never resurrects a task", "statement": "A start report arriving after the task completed, failed, was cancelled or skipped leaves state, times, result and error as they were; only the node id is refreshed.", "quantifier": "all interleavings of start with completion/failure/cancel", "why_tests_cant": "message reordering", "anchors": ["internal/coordinator/handlers/started.go:handle"]}
{"id": "C19", "title": "Conditional tasks are skipped, never executed", "statement": "A task whose evaluated `if` is \"false\" up to surrounding whitespace becomes SKIPPED, is never published to a worker queue, creates no sub-tasks or sub-jobs, and its completion is announced so the job proceeds; any other value schedules it.", "quantifier": "all tasks and `if` strings", "why_tests_cant": "all strings", "anchors": ["internal/coordinator/handlers/pending.go"]}
{"id": "C20", "title": "Job defaults fill only what the task leaves open", "statement": "A scheduled task runs with its own queue, limits, timeout, retry limit and priority where it specifies them, with the job's default where it does not, and on queue \"default\" when neither specifies one.", "quantifier": "all tasks and defaults, all combinations of absent/present fields", "why_tests_cant": "cartesian product of optional fields over all values", "anchors": ["internal/coordinator/scheduler/scheduler.go:scheduleRegularTask"]}
{"id": "C21", "title": "Scheduling publishes exactly once and agrees with the store", "statement": "Scheduling a regular task publishes exactly one message, to the queue recorded in the store, with the content stored (state SCHEDULED), and only after the store was updated; if the store update fails nothing is published.", "quantifier": "all tasks, all fault points", "why_tests_cant": "fault points", "anchors": ["internal/coordinator/scheduler/scheduler.go:scheduleRegularTask"]}
{"id": "C22", "title": "Attached sub-job and parent task", "statement": "Scheduling an attached sub-job task creates exactly one PENDING job whose parent is that task, with the tasks, inputs, secrets, output, webhooks and permissions given, and publishes it; when that job completes the parent task's completion with the job's result is published, when it fails the parent task's failure is published, and no job event is emitted for it.", "quantifier": "all sub-job definitions, all outcomes", "why_tests_cant": "all definitions and states", "anchors": ["internal/coordinator/scheduler/scheduler.go:scheduleAttachedSubJob", "internal/coordinator/handlers/job.go:completeJob", "internal/coordinator/handlers/job.go:failJob"]}
{"id": "C23", "title": "Detached sub-job does not block its parent", "statement": "Scheduling a detached sub-job creates an independent job (no parent), publishes it, and publishes the completion of the scheduling task. The secrets declared for it are usable in its templates (violated: the context has no secrets).", "quantifier": "all sub-job definitions", "why_tests_cant": "all definitions; the missing secrets only show when a template uses them", "anchors": ["internal/coordinator/scheduler/scheduler.go:scheduleDetachedSubJob"]}
{"id": "C24", "title": "Restart resumes at the failed position", "statement": "Restarting is accepted only for FAILED/CANCELLED jobs with remaining tasks; it makes the job RUNNING and creates and publishes exactly one fresh task, the one at the job's current position; results already in the job's context and the position are kept.", "quantifier": "all jobs, positions and states", "why_tests_cant": "all positions and histories", "anchors": ["internal/coordinator/api/api.go:restartJob", "internal/coordinator/handlers/job.go:restartJob"]}
{"id": "C25", "title": "Redelivery is bounded", "statement": "A task message returned by the broker is re-queued on its own queue with its redelivery count increased at most 5 times, after which it is failed with an explanation; it is never dropped or duplicated by the redelivery handling.", "quantifier": "all redelivery counts and chains of redeliveries", "why_tests_cant": "unbounded crash/redelivery chains", "anchors": ["internal/coordinator/handlers/redelivered.go", "broker/rabbitmq.go:subscribe"]}
{"id": "C26", "title": "A handler error becomes a visible failure", "statement": "If handling a task message on the pending, completed, started, error or progress queue fails, the task is failed through the same path as a worker failure with that error message; if handling a job message fails, the job is failed. Errors are not silently dropped.", "quantifier": "all messages and errors", "why_tests_cant": "all error points", "anchors": ["internal/coordinator/coordinator.go:taskHandler", "internal/coordinator/coordinator.go:jobHandler"]}
{"id": "C27", "title": "A task whose expressions cannot be evaluated fails the job", "statement": "If a task's templates cannot be evaluated the task is recorded FAILED with the error and never executed, and the job fails. (Holds for the first task; violated for later tasks and for restart, which publish the FAILED task to the pending queue where it gets scheduled.)", "quantifier": "all jobs and templates", "why_tests_cant": "error path at every position", "anchors": ["internal/coordinator/handlers/job.go:startJob", "internal/coordinator/handlers/completed.go:completeTopLevelTask", "internal/coordinator/handlers/job.go:restartJob"]}
{"id": "C28", "title": "Job result and output", "statement": "A completed job's result is its output template evaluated over the job context at completion; if the template fails the job is FAILED with that error instead. job.completed (or job.failed) is published exactly once per accepted completion for a root job and never if the completion is refused.", "quantifier": "all jobs, outputs, contexts", "why_tests_cant": "all templates and states", "anchors": ["internal/coordinator/handlers/job.go:completeJob"]}
{"id": "C29", "title": "Auto-delete", "statement": "A completed job gets a deletion time of completion time plus its auto-delete delay iff it has a parseable auto-delete setting; no other outcome sets it.", "quantifier": "all auto-delete settings", "why_tests_cant": "all settings and outcomes", "anchors": ["internal/coordinator/handlers/job.go:completeJob"]}
{"id": "C30", "title": "Task results are visible to later tasks under their var", "statement": "After a task with variable v and non-empty result r completes, the job context maps v to r and every other variable, input, secret and job field is unchanged; a task with no var or empty result changes nothing in the context.", "quantifier": "all contexts, variables and results, all three completion paths", "why_tests_cant": "all maps", "anchors": ["internal/coordinator/handlers/completed.go"]}
{"id": "C31", "title": "Transactions are all-or-nothing", "statement": "For any sequence of datastore operations run inside a transaction, either all their effects are visible afterwards (function and commit succeed) or none; nested transactions join the outer one and nothing is visible outside before commit.", "quantifier": "all operation sequences, nestings, failures, panics at every point", "why_tests_cant": "arbitrary nesting and failure points", "anchors": ["datastore/postgres/postgres.go:WithTx"]}
{"id": "C32", "title": "Job listing respects permissions", "statement": "A listed job is shown to a user iff it meets the search term and tags asked for and the listing is anonymous, or the job has no permissions, or one of its permissions names the user, or names a role the user has.", "quantifier": "all jobs, users, roles and permission sets", "why_tests_cant": "relational query over unbounded tables", "anchors": ["datastore/postgres/postgres.go:GetJobs"]}
{"id": "C33", "title": "Pagination is a partition", "statement": "For every page size the pages 1..totalPages concatenated are exactly the matching items in order, with no overlap or omission, no page exceeds its size, pages beyond the end are empty, and totalPages is the least number of pages that suffices. A job's log lists each log part of each of its tasks once, latest position first.", "quantifier": "all item counts, sizes and pages", "why_tests_cant": "unbounded arithmetic", "anchors": ["datastore/postgres/postgres.go:GetJobs", "datastore/postgres/postgres.go:GetTaskLogParts", "internal/coordinator/api/api.go:listJobs"]}
{"id": "C34", "title": "Cleanup deletes only what expired", "statement": "Expiry deletes only jobs past their deletion time or terminal jobs older than the retention, with all their tasks, logs and permissions, never a live job or data of surviving jobs; at most 1000 per pass; the interval between passes always stays within [1 minute, 1 hour].", "quantifier": "all stores, clocks and histories of passes", "why_tests_cant": "unbounded histories", "anchors": ["datastore/postgres/postgres.go:cleanupProcess", "datastore/postgres/postgres.go:expungeExpiredJobs"]}
{"id": "C35", "title": "Secrets at rest", "statement": "With an encryption key configured, secrets written to the store read back equal, and the stored secret column is not the plaintext; without the key they read as \"[encrypted]\". (Violated for the job's context column, which stores the same secrets in plaintext.)", "quantifier": "all secret maps, all keys", "why_tests_cant": "all strings, including ones that look encrypted", "anchors": ["datastore/postgres/postgres.go:encryptSecrets", "datastore/postgres/record.go", "internal/encrypt/encrypt.go"]}
{"id": "C36", "title": "Heartbeats never go backwards", "statement": "A node's recorded last heartbeat never decreases whatever the order and duplication of heartbeats, it is the maximum received, status/CPU/task count are those of a heartbeat carrying that maximum, and a node is reported OFFLINE iff it was UP and its last heartbeat is older than two heartbeat periods.", "quantifier": "all orders, duplications and interleavings of heartbeats", "why_tests_cant": "permutations of unbounded histories", "anchors": ["internal/coordinator/handlers/heartbeat.go", "datastore/postgres/record.go:toNode"]}
{"id": "C37", "title": "Log shipping preserves the log", "statement": "Concatenating the shipped log parts in number order yields exactly the bytes written up to the last flush, part numbers are 1,2,3,..., and no empty part is shipped.", "quantifier": "all write/tick interleavings", "why_tests_cant": "all interleavings and contents", "anchors": ["broker/log.go:LogShipper"]}
{"id": "C38", "title": "In-memory broker delivers each message once in order", "statement": "Per queue, with a single subscriber the delivered messages are exactly the published ones in order; messages never cross queues; with several subscribers each message is delivered to exactly one of them; what is delivered is the content at publish time. (Violated when the first publish and the first subscription of a queue race, after DeleteQueue, and for log parts and progress reports, whose contents are shared.)", "quantifier": "all publish/subscribe/deliver interleavings", "why_tests_cant": "all interleavings", "anchors": ["broker/inmemory.go"]}
{"id": "C39", "title": "Clones are complete and independent", "statement": "A cloned task/job has the same field values as the original at every nesting depth (documented exceptions: task Redelivered, job DeleteAt, user password, and the user of a permission that also has a role) and later changes to the clone's maps, sub-objects or nested tasks do not affect the original.", "quantifier": "all tasks/jobs of any nesting depth, all mutations", "why_tests_cant": "recursive structure of unbounded depth", "anchors": ["task.go:Clone", "job.go:Clone", "mount.go:Clone", "user.go:Clone", "role.go:Clone"]}
{"id": "C40", "title": "User tasks cannot be routed to internal queues", "statement": "A job accepted by the API only names queues that are neither coordinator queues nor node-private queues, so that its tasks are only ever published to ordinary queues. (Violated through templated queue names, which are evaluated after validation, and through the tasks of sub-jobs, which are not validated at all.)", "quantifier": "all accepted jobs, all strings", "why_tests_cant": "all strings and nesting", "anchors": ["broker/queues.go", "input/validate.go:validateQueue", "internal/eval/eval.go:EvaluateTask"]}
{"id": "C41", "title": "Wildcard matching", "statement": "Match(p,s) holds iff s can be obtained from p by replacing each * by some string, and every other character by itself; * alone matches everything; matching always terminates.", "quantifier": "all patterns and strings", "why_tests_cant": "infinite domain", "anchors": ["internal/wildcard/wildcard.go:Match"]}
{"id": "C42", "title": "Template evaluation", "statement": "Evaluating a template replaces each {{ expr }} by the value of expr and leaves every other character as is; text without {{ }} is returned unchanged; values are not re-evaluated; the first failing expression fails the whole evaluation.", "quantifier": "all template strings and all expression values", "why_tests_cant": "infinite domain", "anchors": ["internal/eval/eval.go:EvaluateTemplate"]}
{"id": "C43", "title": "Redaction", "statement": "In a redacted job or task returned by the API, values under secret-looking keys are replaced entirely and no occurrence of a non-empty secret value remains (for secrets without brackets that are not part of the word REDACTED: others can reappear next to or inside the markers) in the covered fields (env, mount options, pre/post/parallel tasks, sub-job secrets and webhook headers, registry password; inputs, context, webhooks). Fields not covered are listed as violations.", "quantifier": "all jobs, tasks of any nesting, secrets and patterns", "why_tests_cant": "infinite domain and recursive structure", "anchors": ["internal/redact/redact.go"]}
{"id": "C44", "title": "Cache expiry", "statement": "A cached value is returned until its expiration and never after; a later Set replaces value and deadline; deleting or evicting one key does not affect others; at every time a lookup returns the most recent unexpired write; every removal of an entry is reported to the eviction callback exactly once.", "quantifier": "all operation histories and clocks", "why_tests_cant": "unbounded histories", "anchors": ["internal/cache/cache.go"]}
{"id": "C45", "title": "Locks are exclusive", "statement": "At any time at most one holder has acquired a given lock key and not released it; acquiring a held key fails and leaves the holder in place; release frees only that key.", "quantifier": "all acquire/release histories", "why_tests_cant": "unbounded histories", "anchors": ["locker/inmemory.go", "locker/postgres.go"]}
{"id": "C46", "title": "Middleware order", "statement": "For any chain of middlewares the first registered is outermost: before-hooks run in registration order, then the handler, after-hooks in reverse; a middleware that does not call next prevents everything after it; with no middleware the handler runs alone.", "quantifier": "all chain lengths and middleware behaviours", "why_tests_cant": "unbounded chains", "anchors": ["middleware/job/job.go:ApplyMiddleware", "middleware/task/task.go", "middleware/log/log.go", "middleware/node/node.go", "middleware/web/web.go"]}
{"id": "C47", "title": "Webhook delivery attempts", "statement": "A webhook call makes between 1 and 5 attempts, stops at the first 2xx or at the first non-retryable status, succeeds iff some attempt succeeded, waits 2,4,6,8 seconds between attempts and never sends after success. A job webhook fires iff its event matches the kind of change and its condition holds.", "quantifier": "all sequences of server responses, all webhooks/events", "why_tests_cant": "all response sequences", "anchors": ["internal/webhook/webhook.go", "middleware/job/webhook.go", "middleware/task/webhook.go"]}
{"id": "C48", "title": "Engine lifecycle", "statement": "An engine goes IDLE->RUNNING->TERMINATING->TERMINATED only; components can be registered only before start; start and terminate act at most once; an operation in the wrong state is rejected without effect.", "quantifier": "all call sequences", "why_tests_cant": "all call histories", "anchors": ["engine/engine.go"]}
{"id": "C49", "title": "Mounts", "statement": "A mount is handled by the mounter registered for its type, unmount goes to the mounter that mounted it, an unknown type is refused; bind mounts are refused unless enabled and, when an allow-list exists, their source is on it.", "quantifier": "all mounts, mounters, allow-lists, call histories", "why_tests_cant": "all histories and strings", "anchors": ["runtime/multi.go", "runtime/docker/bind.go"]}
{"id": "C50", "title": "Input validation", "statement": "An accepted job has at least one task; every task has at most one of parallel/each/subjob; composite tasks carry no execution settings; retry limits are 1..10, priority 0..9; a permission names exactly one of role/user that exists; mounts are well-formed - at every nesting depth that validation reaches. (Sub-job task lists are not validated and may be empty: documented violation.)", "quantifier": "all job inputs of any nesting", "why_tests_cant": "recursive inputs", "anchors": ["input/validate.go", "input/job.go", "input/task.go"]}
{"id": "C51", "title": "Scheduled jobs", "statement": "While a scheduled job is active each tick of its cron produces exactly one job carrying its definition; while paused or deleted none; pausing one does not affect others. (Violations: a duplicated activation leaves a second, unstoppable cron entry; job defaults are not copied.)", "quantifier": "all histories of activate/pause/delete/tick/restart", "why_tests_cant": "unbounded histories", "anchors": ["internal/coordinator/handlers/schedule.go", "internal/coordinator/api/api.go:pauseScheduledJob"]}
{"id": "C52", "title": "A worker reports exactly one outcome per execution", "statement": "For every task a worker takes it publishes exactly one start report (if middleware lets it run) and exactly one outcome: completion with the result if the runtime succeeded, failure with the error otherwise, including for bad timeouts and middleware errors; outcome content equals the received task apart from state, times, node, limits, timeout, result, error. Its running-task count returns to its previous value, and cancelling an unknown task has no effect.", "quantifier": "all tasks, runtime results, middlewares, interleavings of run and cancel", "why_tests_cant": "all outcomes and interleavings", "anchors": ["internal/worker/worker.go"]}
{"id": "C53", "title": "Health", "statement": "GET /health is UP iff every registered component check succeeds; one failure makes it DOWN whatever the order.", "quantifier": "all sets of checks", "why_tests_cant": "all combinations", "anchors": ["health/health.go", "internal/coordinator/api/api.go:health"]}
{"id": "C54", "title": "Pre, main and post tasks run in order and stop at the first failure", "statement": "A container/shell task runs its pre tasks in order, then the main command, then post tasks in order; a failure stops the sequence and fails the task; the result is that of the main task. Every container of the run (pre, main, post, sidecar) has exactly the mounts made for the task, its networks and its limits; sidecars are up before the container they accompany is awaited; whatever was made is removed. The shell runtime refuses exactly the tasks asking for what it cannot honour.", "quantifier": "all numbers of pre/post tasks and outcomes", "why_tests_cant": "unbounded sequences", "anchors": ["runtime/shell/shell.go:Run", "runtime/docker/docker.go:Run"]}
{"id": "C55", "title": "Host environment exposure", "statement": "The host-env middleware exposes to a task exactly the configured host variables under their configured names and changes nothing else in its environment.", "quantifier": "all specs, host environments and tasks", "why_tests_cant": "all strings and maps", "anchors": ["middleware/task/hostenv.go"]}
{"id": "C56", "title": "API guards", "statement": "Cancel is accepted iff the job is SCHEDULED/RUNNING, restart iff FAILED/CANCELLED with remaining tasks, pause iff ACTIVE, resume iff PAUSED, deletion of a queue iff it is a task queue; page numbers and sizes are clamped to legal ranges; a refused call has no effect on store or broker.", "quantifier": "all stored jobs and parameters", "why_tests_cant": "all parameter values", "anchors": ["internal/coordinator/api/api.go"]}
{"id": "C57", "title": "No message crashes the coordinator", "statement": "No delivered message makes the coordinator process panic. (Violated: a sub-job with an empty task list; cancelling a sub-job whose parent task is gone.)", "quantifier": "all messages and stores", "why_tests_cant": "all inputs", "anchors": ["internal/coordinator/handlers/job.go:startJob", "internal/coordinator/handlers/cancel.go:handle"]}
{"id": "C58", "title": "Task progress reports", "statement": "A reported task progress is stored clamped to 0..100, the job progress becomes ((position-1)+p/100)/taskCount*100 rounded to two decimals and lies in [0,100] for a job in progress, and no state, position or context changes.", "quantifier": "all reported values, positions, counts", "why_tests_cant": "unbounded numeric domain", "anchors": ["internal/coordinator/handlers/progress.go"]}
{"id": "C59", "title": "Liveness of a well-behaved job", "statement": "With a FIFO broker, no faults, and workers that complete every task, a submitted job of n>=1 regular tasks reaches COMPLETED after finitely many deliveries having executed each of its tasks exactly once in order, and then no message is left.", "quantifier": "all n and all task definitions (conditional tasks included)", "why_tests_cant": "induction over an unbounded number of tasks", "anchors": ["internal/coordinator/handlers/job.go", "internal/coordinator/handlers/completed.go", "internal/coordinator/handlers/pending.go", "internal/coordinator/handlers/started.go", "internal/worker/worker.go", "broker/inmemory.go"]}
{"id": "C60", "title": "Isolation between jobs", "statement": "Handling any message about one job (and the tasks, parent and sub-jobs it names) never changes another unrelated job's record or its tasks.", "quantifier": "all pairs of jobs and messages", "why_tests_cant": "all stores", "anchors": ["internal/coordinator/handlers/*.go", "internal/coordinator/scheduler/scheduler.go"]}
{"id": "C61", "title": "Each child runs the definition instantiated with its own element", "statement": "The child created for element number k of an each task is the definition with every template evaluated against the job context and element k, independently of the other elements. (Violated for commands: a child's `cmd`, and those of its pre, post and parallel tasks, are evaluated in storage shared by all children, so every child runs the first element's command.)", "quantifier": "all definitions, lists and contexts", "why_tests_cant": "the sharing shows only with templated commands and at least two elements; all definitions and list lengths are quantified over", "anchors": ["internal/coordinator/scheduler/scheduler.go:scheduleEachTask", "internal/eval/eval.go:EvaluateTask", "task.go:Clone"]}
{"id": "C62", "title": "Who reaches the API", "statement": "With basic authentication on, an endpoint function (built-in or custom) runs only on a request carrying the name and password of an existing user, and sees that user's name; with key authentication on, only with the configured key or on /health; never with a body above the limit; never if its endpoint group is switched off; and a request with the credentials asked for does reach the endpoint of its route.", "quantifier": "all requests, user tables, configurations, custom middlewares and custom endpoints, and every choice of the router among matching routes", "why_tests_cant": "unbounded header values, middleware chains and routes", "anchors": ["engine/coordinator.go:echoMiddleware,basicAuth,keyAuth,rateLimit", "internal/coordinator/api/api.go:NewAPI,middlewareAdapter"]}
{"id": "C63", "title": "User accounts cannot be taken over", "statement": "However requests to create users interleave, user names and ids never collide, so a lookup by name or id finds exactly that user; existing accounts are never changed; a request naming an existing user is refused; only the (trimmed) password given at creation opens an account and it does; nobody is let in as the guest; the password is neither stored nor sent back.", "quantifier": "all interleavings of requests to create users (with failures between check and insertion), row orders, requests", "why_tests_cant": "unbounded histories and races between check and insertion", "anchors": ["internal/coordinator/api/api.go:createUser", "datastore/postgres/postgres.go:GetUser,CreateUser", "engine/coordinator.go:basicAuth", "db/postgres/schema.go"]}
{"id": "C64", "title": "Queues and roles", "statement": "Every queue of the coordinator gets at least one subscriber, as many as configured otherwise, each with the handler due; a coordinator subscribes to nothing else; a worker never consumes a coordinator queue, takes tasks only from its configured queues (default: one from 'default'), with the configured concurrency, and cancellations only from its private queue.", "quantifier": "all queue configurations, map iteration orders, points at which the broker refuses a subscription", "why_tests_cant": "unbounded maps, iteration order is random", "anchors": ["internal/coordinator/coordinator.go:NewCoordinator,Start", "internal/worker/worker.go:NewWorker,Start", "broker/queues.go"]}
{"id": "C65", "title": "What is sent is what is received", "statement": "A task or job published on the message broker is decoded by its consumer to the same task or job, whatever its fields and nesting, except that mount identifiers and password hashes are never sent; a task without mount identifiers, in particular one that has travelled before, arrives exactly as it was; two tasks with the same encoding differ at most in mount identifiers; nothing on the wire depends on a password hash.", "quantifier": "all tasks and jobs, every nesting of pre, post, sidecar, parallel, each and sub-job tasks", "why_tests_cant": "unbounded nesting and field values", "anchors": ["broker/rabbitmq.go:serialize,deserialize", "task.go:Task and its parts (json tags)", "job.go:Job and its parts (json tags)", "mount.go:Mount", "user.go:User", "role.go:Role"]}
{"id": "C66", "title": "What is stored is what is read", "statement": "A task or job created in the database is accepted exactly when its id is new, the rows it refers to exist and every value fits its column; what is then read is the task or job as given, except for a listed set of fields that have no column (redelivery count, progress, probe, mount ids; for jobs completion data and the cron text of the schedule) and zero characters in error and result; an update changes exactly the listed mutable fields of exactly that record; and every update made by the coordinator only touches fields that an update stores.", "quantifier": "all tasks and jobs, all sequences of creations and updates, every reachable step of the coordinator", "why_tests_cant": "every field value, every nesting, unbounded tables; positional SQL parameters", "anchors": ["datastore/postgres/postgres.go:CreateTask,GetTaskByID,UpdateTask,CreateJob,GetJobByID,UpdateJob", "datastore/postgres/record.go:taskRecord,jobRecord,toTask,toJob", "db/postgres/schema.go:SCHEMA"]}
{"id": "C67", "title": "Messages through RabbitMQ", "statement": "Every message that reached a RabbitMQ queue is, at any time, in exactly one place: waiting, unacknowledged with one consumer, or let go by the server. A task handler is called at most once per publication of a task, whatever connections are lost; handlers only get what was published to their queue; an acknowledged message was handled without error, or is a redelivered task that was sent on to the redeliveries queue (or that sending failed, or it is unreadable); a rejected one had a failing handler. A listening consumer can deal with any readable waiting message; an unreadable one blocks its consumer until the channel closes.", "quantifier": "all histories of publications, subscriptions, deliveries, handler results, network failures, connection losses at any point, queue deletions", "why_tests_cant": "all interleavings and failure points, unbounded numbers of messages and consumers", "anchors": ["broker/rabbitmq.go:PublishTask,subscribe,publish,serialize,deserialize,DeleteQueue"]}
{"id": "C68", "title": "Stopping the RabbitMQ broker", "statement": "When Shutdown returns, every subscription to a coordinator queue that existed when it was called has been told to stop and never calls its handler again; without lost channels it can always complete; once a coordinator subscription has lost its channel, a later Shutdown never returns, even after its context has expired.", "quantifier": "all histories of subscriptions, messages, channel losses, re-subscriptions (up to 20 attempts each) and schedules of Shutdown", "why_tests_cant": "all interleavings of goroutines", "anchors": ["broker/rabbitmq.go:subscribe,Shutdown", "broker/queues.go:IsCoordinatorQueue"]}
{"id": "C69", "title": "Event patterns with RabbitMQ", "statement": "For a pattern whose stars stand alone between dots, every event the in-memory broker delivers to a subscriber is also delivered by the RabbitMQ broker; for a pattern w1.\u2026.wn.* they differ on the single topic w1.\u2026.wn; for patterns without stars both deliver exactly that topic.", "quantifier": "all patterns of that form, all topics", "why_tests_cant": "unbounded strings", "anchors": ["broker/rabbitmq.go:SubscribeForEvents,PublishEvent", "broker/inmemory.go:SubscribeForEvents,PublishEvent", "internal/wildcard/wildcard.go:Match", "broker/broker.go:TOPIC_JOB"]}
{"id": "C70", "title": "Submissions that wait", "statement": "The only job events any execution publishes are job.completed and job.failed, each with a stored, parentless job in that state (a cancelled job causes none). A client that submits a job with wait and whose response starts with a job (status 200) gets the job it submitted, COMPLETED or FAILED; if such an event is delivered before the answer, the response is that job however the wait then ends; otherwise it is one error document (400, 408 or 500). The coordinator survives as long as the job ends at most once.", "quantifier": "all executions of the coordinators, all schedules of the request, its timer, the client's disconnection, the shutdown and the event deliveries", "why_tests_cant": "all interleavings of five goroutines with an unbounded execution behind them", "anchors": ["internal/coordinator/api/api.go:createJob,SubmitJob", "internal/coordinator/handlers/job.go:completeJob,failJob", "input/job.go:ID", "broker/inmemory.go:SubscribeForEvents"]}
{"id": "C71", "title": "Container images: reuse, verification and pruning", "statement": "An image handed to a task is not removed by the runtime (neither by pruning nor by the forced removal after a failed verification) before that task's Run returned. The pruner removes an image only while no task runs and when every served request for it is older than the TTL; a round that ends without an error leaves no image unrequested for longer than the TTL. A request is answered without error only if the image was found or pulled and (if verification is on) a container could be created from it, and it was not removed since; the image is then not pulled again until the runtime removed it. Every pull uses the task's registry credentials, else those configured for the image's registry, else none.", "quantifier": "all interleavings of any number of Runs, the puller, the pruner, time and other programs changing the host's images; every call to the engine may fail", "why_tests_cant": "unbounded interleavings of goroutines, time and an engine that changes underneath", "anchors": ["runtime/docker/docker.go:imagePull,puller,doPullRequest,verifyImage,pruner,prune,imageExistsLocally,Run"]}
{"id": "C72", "title": "Jobs of every shape complete in every order", "statement": "In a deployment whose workers complete the tasks they receive and where no operation fails: take any reachable state, submit jobs at any moments (any nesting of simple, conditional, parallel, each and sub-job tasks, attached or detached), and consume the messages in flight one at a time in any order whatsoever. Once submissions stop, after finitely many messages none is left; every job submitted, and every sub-job, is COMPLETED, and every task of theirs is COMPLETED or SKIPPED. At no time, whether submissions stop or not, has one of these jobs or tasks failed, been stopped or cancelled.", "quantifier": "all reachable deployments, all sequences of accepted jobs whose templates evaluate, all orders of consuming messages, all reports of workers", "why_tests_cant": "unboundedly many interleavings of nested jobs; termination is a statement about infinite runs", "anchors": ["internal/coordinator/handlers/pending.go", "internal/coordinator/handlers/started.go", "internal/coordinator/handlers/completed.go", "internal/coordinator/handlers/progress.go", "internal/coordinator/handlers/job.go", "internal/coordinator/scheduler/scheduler.go", "internal/coordinator/coordinator.go:Start"]}
{"id": "C73", "title": "Every task is executed exactly once", "statement": "In the deployments and runs of C72 (no operation fails, workers complete what they receive, every message is consumed once, in any order): at every moment, a task that is no parallel, each or sub-job task has been put on a worker queue exactly once if it is SCHEDULED, RUNNING or COMPLETED and never before; a skipped task, and a task with children, never is; and no task of an older job is. When the run is over every task of the submitted jobs, at every depth, was given to a worker exactly once, except the containers and the skipped ones.", "quantifier": "all reachable deployments, all sequences of accepted jobs whose templates evaluate, all orders of consuming messages, all reports of workers", "why_tests_cant": "exactly-once must hold along every interleaving of nested jobs", "anchors": ["internal/coordinator/handlers/pending.go", "internal/coordinator/handlers/completed.go", "internal/coordinator/scheduler/scheduler.go", "internal/coordinator/handlers/job.go"]}
{"id": "C74", "title": "What runs in the container is what the task says", "statement": "With the docker runtime, for every task whose container is created: the process runs the task's image with the task's command line (its entrypoint or the image's, followed by its command; or, for a script, the shell running a file whose contents are exactly the script); its variables are the task's over the image's, plus TORK_OUTPUT and TORK_PROGRESS, which nothing overrides; its working directory is the task's, and holds each of the task's files with exactly its contents; no other file of the image or the mounts is changed; it sees exactly the task's mounts, in order, and one private volume, and is attached to exactly the task's networks; its limits are exactly the numbers written, and none if none is written; it is privileged only if the node says so, publishes no port except the probe's on the loopback address, and gets devices only on request. Pre, post and sidecar tasks share the task's mounts, networks and limits. A container is created for exactly the tasks whose mounts, limits and device requests can be understood.", "quantifier": "all tasks (any command, script, maps of variables and files walked in any order, mounts, networks, limits), all images and file systems", "why_tests_cant": "ranges over all task definitions and map iteration orders, and needs a container engine to observe", "anchors": ["runtime/docker/tcontainer.go:createTaskContainer", "runtime/docker/tcontainer.go:initTorkdir", "runtime/docker/tcontainer.go:initWorkDir", "runtime/docker/docker.go:parseCPUs", "runtime/docker/docker.go:parseMemory", "runtime/docker/archive.go:WriteFile"]}
{"id": "C75", "title": "Log, exit status and result of a container", "statement": "With the docker runtime: everything the container writes to its standard output and error reaches the task's log, in order and exactly once, if the connection answers reads in full and the engine's frames fit the copy buffer of 32 KiB; for any frames, the log consists of the payloads in order, each cut at that size. A task has a result exactly if its process ended with status 0, and then the result is, byte for byte, what was written to the file named by TORK_OUTPUT; any other status fails the task with that status and (if its text is at most 512 bytes) the whole tail of the log.", "quantifier": "all sequences of frames of any sizes, all exit statuses and outputs", "why_tests_cant": "the frame boundaries depend on timing and engine; all sizes and sequences must be covered", "anchors": ["runtime/docker/docker.go:dockerLogsReader.Read", "runtime/docker/tcontainer.go:Wait", "runtime/docker/tcontainer.go:readOutput"]}
{"id": "C76", "title": "What a task runs with the shell runtime", "statement": "With the shell runtime: the configured shell gets exactly the task's script, in a new directory; its environment is the directory, the worker's PATH and HOME, the places of result and progress and otherwise exactly the task's variables, with nothing else of the worker's environment; a configured user or group is the one the script runs as; the task's files, named directly in the directory and not like one of the three reserved files, are there with their contents; such a task starts (no user or group configured); it has a result exactly if the script ends with status 0, then the contents of the file named by TORK_OUTPUT; when it has ended its directory is gone and the rest of the file system is as the script left it.", "quantifier": "all tasks, workers (identity, umask, environment), configurations, orders of walking the maps, initial file systems and endings", "why_tests_cant": "the environment goes through two processes and two map walks; file names, umasks and identities are unbounded", "anchors": ["runtime/shell/shell.go:doRun", "runtime/shell/shell.go:reexecRun", "runtime/shell/shell.go:buildEnv", "runtime/shell/setid_unix.go:SetUID", "runtime/shell/setid_unix.go:SetGID"]}
{"id": "C77", "title": "What a task runs with the podman runtime", "statement": "With the podman runtime: for an image not named like an option, podman creates a container of exactly the task's image, networks, mounts (volumes and binds only) and working directory, privileged only if the node is; its command line is the task's entrypoint (sh by default) and the script, which is the task's run text or else its command; its environment is the places of result and progress, the task's variables, then the image's; the task's plainly named files are in /tork/workdir. A task has a result only if the log was read to the end and the status is 0, and then the contents of the file named by TORK_OUTPUT. A container that was created is removed exactly once, last, and no other; the task's directory is gone afterwards. A task naming the host network creates nothing unless the node permits it.", "quantifier": "all tasks, nodes (identity, umask, settings), orders of walking the maps, initial file systems, and answers of every podman command", "why_tests_cant": "command lines, file names and answers are unbounded; the removal must hold on every failing path", "anchors": ["runtime/podman/podman.go:doRun", "runtime/podman/podman.go:stop", "runtime/podman/podman.go:imagePull"]}
{"id": "C78", "title": "Which registry credentials a pull is sent with", "statement": "An image reference is split into domain, path, tag and digest so that the parts put together are the reference; the domain has no slash. A pull without credentials of its own is sent either with none (the reference has no domain) or with those configured for exactly the domain the image name begins with, which is the host the engine contacts whenever the name is one the engine takes for a host; what is configured for other registries has no influence. A login stored as docker login stores it (base64 of user:password) is read back exactly, colons in the password included. The task's own credentials win.", "quantifier": "all reference texts, configurations, helper answers, user names and passwords", "why_tests_cant": "references, passwords and configurations are unbounded texts; a test fixes a few", "anchors": ["runtime/docker/reference.go:parseRef", "runtime/docker/auth.go:getRegistryCredentials", "runtime/docker/auth.go:decodeBase64Auth", "runtime/docker/auth.go:getCredentialsFromHelper", "runtime/docker/docker.go:doPullRequest"]}
{"id": "C79", "title": "Where a setting comes from", "statement": "A property set by the environment variable TORK_ + its path in capitals with dots replaced by underscores has that value whatever any file says; a property no variable speaks about has the value of the one configuration file that is read (the one named by TORK_CONFIG, which must then exist and be well-formed; otherwise the first default place that exists); otherwise it has its default. Variables not named TORK_... have no influence, and the order in which variables are read does not matter. Lists may be written as lists or separated by commas.", "quantifier": "all environments, files, property paths, values and orders of reading", "why_tests_cant": "environments and files are unbounded; precedence must hold for every property", "anchors": ["conf/conf.go:LoadConfig", "conf/conf.go:Strings", "conf/conf.go:StringDefault", "conf/conf.go:IntDefault"]}
{"id": "C80", "title": "Progress a task writes to its file", "statement": "Every progress value published for a running task was read from its progress file, in order of reading and at most once per reading; a value is published only if it differs from the one before it; after every reading the last published value is the last value read; nothing is published once the file is gone. If the broker takes every message, the stored progress is always the last value read, brought into 0..100.", "quantifier": "all sequences of file contents, broker failures and moments at which the task ends, for the docker, podman and shell runtimes", "why_tests_cant": "the loop runs for the whole life of a task against arbitrary contents and failures", "anchors": ["runtime/docker/tcontainer.go:reportProgress", "runtime/podman/podman.go:reportProgress", "runtime/shell/shell.go:doRun", "internal/coordinator/handlers/progress.go:handle"]}
{"id": "C81", "title": "Sidecars are ready before the task, and probes stay local", "statement": "The container of a task with sidecars starts only after every sidecar was started and, if it has a probe, answered a request on its port with status 200; a sidecar is asked until that answer and not after; one that does not answer in time fails the run and the task's container is never started. With a path that begins with a slash the requests go to the sidecar's own port on this machine. The private network is removed unless the engine refuses five times.", "quantifier": "all tasks, sidecars, probes, answers, failures of the engine", "why_tests_cant": "answers and failures come in any order for any number of sidecars", "anchors": ["runtime/docker/docker.go:doRun", "runtime/docker/docker.go:removeNetwork", "runtime/docker/tcontainer.go:probeContainer", "runtime/docker/tcontainer.go:Start"]}
{"id": "C82", "title": "Handlers do not block each other for ever on the database", "statement": "A coordinator's handlers and API requests share a pool of at most max_open_conns connections to PostgreSQL. If the pool is unlimited, or larger than the number of row-locking calls in progress, then in every interleaving some handler can go on, every call returns after finitely many steps, and never more than max_open_conns connections are in use. This is the best possible: with n connections, n concurrent updates of n different jobs can wait for each other for ever, and with one connection no update of a job's state outside a task completion ever returns.", "quantifier": "all numbers of handlers, all finite sequences of datastore calls of each, all interleavings and statement failures, all pool sizes", "why_tests_cant": "Deadlocks depend on the interleaving and on the pool size; a test runs a few calls against an idle pool of the default size", "anchors": ["datastore/postgres/postgres.go:WithTx", "datastore/postgres/postgres.go:UpdateJob", "datastore/postgres/postgres.go:UpdateScheduledJob", "datastore/postgres/postgres.go:UpdateTask", "datastore/postgres/postgres.go:NewPostgresDataStore", "internal/coordinator/handlers/completed.go:completeEachTask", "internal/coordinator/handlers/completed.go:completeParallelTask", "internal/coordinator/handlers/completed.go:completeTopLevelTask"]}
{"id": "C83", "title": "A RabbitMQ subscription that lost its channel comes back", "statement": "Whatever connections were lost, however often the server crashed and whoever else used the broker: once the server takes connections again, as many attempts in a row as the pool has connections (3; the code makes 20) re-establish a subscription, with its queue really there and readable on that connection, unless the queue was deleted. A connection handed out is open. After Shutdown no connection of the broker is open and none is handed out.", "quantifier": "all pool sizes, queues, sequences of subscriptions, publications, lost connections, server crashes (with any durable queues kept) and refusals", "why_tests_cant": "The belief which queues exist can go stale at any moment of a history of crashes; a test reconnects once", "anchors": ["broker/rabbitmq.go:getConnection", "broker/rabbitmq.go:declareQueue", "broker/rabbitmq.go:subscribe", "broker/rabbitmq.go:DeleteQueue", "broker/rabbitmq.go:Shutdown", "broker/rabbitmq.go:NewRabbitMQBroker"]}
{"id": "C84", "title": "Results are not invented", "statement": "A task is marked COMPLETED only while a message about its completion is handled, with exactly the state and result of that message; for a task that is neither parallel, each nor a sub-job, that message was sent by a worker which had been handed this very task from a work queue before. What templates see as tasks.<var> is what such a completion of a task of that job with that variable reported (or belongs to a parallel or each task).", "quantifier": "every reachable configuration of the interleaving machine: all jobs, schedules, losses, duplicates, redeliveries, crashes, faults", "why_tests_cant": "A result stored without a report, or one task's report stored for another, needs particular interleavings and redeliveries", "anchors": ["internal/coordinator/handlers/completed.go:handle", "internal/coordinator/handlers/pending.go:skipTask", "internal/coordinator/handlers/redelivered.go", "internal/worker/worker.go:handleTask", "internal/coordinator/scheduler/scheduler.go"]}
{"id": "C85", "title": "A sub-job's task completes with its sub-job's result", "statement": "A task that runs an attached sub-job is COMPLETED only after a sub-job created for it was COMPLETED, and shows the result that sub-job had (unless a worker was handed the task itself, C84_composite_run_by_worker_refuted). What templates see as tasks.<var> is a worker's reported result, the result of a completed sub-job of such a task, or belongs to a parallel, each, detached or skipped task of that job with that variable.", "quantifier": "every execution of the interleaving machine: all jobs, nestings of sub-jobs, schedules, losses, duplicates, redeliveries, crashes, faults", "why_tests_cant": "the parent task is read, changed and re-published by other handlers between the sub-job's completion and its own; a wrong parent or result needs particular interleavings of several jobs", "anchors": ["internal/coordinator/handlers/job.go:completeJob", "internal/coordinator/scheduler/scheduler.go:scheduleAttachedSubJob", "internal/coordinator/handlers/completed.go:handle"]}
{"id": "C86", "title": "A task's log reads back as it was written", "statement": "If every part of a task's log was published and each reached the coordinator once, in any order and mixed with other tasks' parts, the pages of the log read from the last to the first are what the process wrote, provided every part is text (UTF-8 without NUL). In general what is read is the published parts in order, as the broker carries them, without those that are not text; through RabbitMQ a part is missing exactly if it has a NUL byte, and unchanged exactly if it is UTF-8.", "quantifier": "all sequences of writes and flush ticks, all outputs, both brokers, all arrival orders and interleavings with other tasks' messages, all page sizes", "why_tests_cant": "the cut of the output into parts depends on timing; arrival order, other tasks' parts and page boundaries are schedule dependent", "anchors": ["broker/log.go:LogShipper", "internal/coordinator/handlers/log.go:handle", "datastore/postgres/postgres.go:CreateTaskLogPart", "datastore/postgres/postgres.go:GetTaskLogParts", "broker/rabbitmq.go:PublishTaskLogPart"]}
{"id": "C87", "title": "What the answers of the API show of a job's secrets", "statement": "With redaction on, GET of a job, of a task or of a log shows no secret of the job in any covered field; listings and answers to submissions are made of summaries, which do not depend on the secrets, the context, the tasks or the webhooks of the job. (Violated: the answer to a submission that waits and GET of a scheduled job show the secrets as they are, and summaries show the inputs without redaction.)", "quantifier": "all endpoints, all jobs, tasks of any nesting, logs, scheduled jobs, all secrets without brackets that are no part of the word REDACTED", "why_tests_cant": "independence of the answer from the secrets ranges over pairs of jobs; each endpoint builds its answer on its own path", "anchors": ["internal/coordinator/api/api.go:getJob", "internal/coordinator/api/api.go:createJob", "internal/coordinator/api/api.go:listJobs", "internal/coordinator/api/api.go:getScheduledJob", "job.go:NewJobSummary", "middleware/job/redact.go:Redact"]}
{"id": "C88", "title": "What a search means", "statement": "A query is its words, however they are spaced: 'tag:x' asks for the tag x, 'tags:x,y' for each of x and y, every other word is searched for. GET /jobs?q lists, of the jobs the user may see, those whose text matches the words (if any) and that have at least one of the tags (if any). (In a log search, words that look like tags are ignored.)", "quantifier": "all query texts (white space of ASCII), all histories of the store, all users", "why_tests_cant": "the meaning ranges over every text and every layout of it", "anchors": ["datastore/postgres/postgres.go:parseQuery", "datastore/postgres/postgres.go:GetJobs", "internal/coordinator/api/api.go:listJobs"]}
{"id": "C89", "title": "How much of what a task prints reaches its log", "statement": "The bytes handed to a task's log are always the beginning of what the task printed, in order. With podman, a run that ends without an error has handed over all of it. With Docker and the shell all of it if the copier saw the end before the run returned. Together with C37 and C86: reading a task's log page by page gives the beginning of what the task printed.", "quantifier": "all interleavings of the process, the copier and the run's end; all splits into reads and writes", "why_tests_cant": "the race of the copier with the end of the process cannot be enumerated by runs", "anchors": ["runtime/docker/tcontainer.go:Wait", "runtime/shell/shell.go:doRun", "runtime/podman/podman.go:doRun"]}
{"id": "C90", "title": "A task's files and output cross the container's border byte for byte", "statement": "With Docker, the script and files of a task are sent as a tar archive that is never closed. For files with plain names (at most 100 ASCII characters, not ending in '/') and less than 8 GiB each, the engine unpacks exactly these files: names, modes and contents, whatever the bytes. The output the engine sends back comes out as it was, whoever owns the file and whenever it was changed; that of a directory is the contents of all its files.", "quantifier": "all lists of files, names and contents; all owners, groups and times of the output file", "why_tests_cant": "every length modulo the block size, every content, every number of files; the archive has no end mark", "anchors": ["runtime/docker/archive.go:WriteFile", "runtime/docker/archive.go:Read", "runtime/docker/tcontainer.go:initTorkdir", "runtime/docker/tcontainer.go:initWorkDir", "runtime/docker/tcontainer.go:readOutput"]}
{"id": "C91", "title": "Which task a worker gets next", "statement": "With RabbitMQ's classic queues: whenever a worker is handed a task from a task queue, no task waiting there has a higher priority, and none of the same priority was published before it; a task's priority is its own or, if it has none, its job's default; while tasks wait there is always one to hand out. A task given back keeps its place. The coordinator's queues, and all queues of the quorum type, are first come, first served.", "quantifier": "all histories of publications, hand-outs, returns and acknowledgements; all queue names; all priorities from 0 to 9", "why_tests_cant": "depends on every order of publications, hand-outs and returns; the level a message has is fixed by the queue's declaration and the message's byte", "anchors": ["broker/rabbitmq.go:declareQueue", "broker/rabbitmq.go:publish", "broker/queues.go:IsTaskQueue", "internal/coordinator/scheduler/scheduler.go:scheduleRegularTask"]}
{"id": "C92", "title": "A task's volumes are its own", "statement": "A mount of type 'volume' gives the task a new, empty volume of its own, whatever source it asks for: what its containers find there is what was written through that mount since it was mounted, never data of another task or another program; volumes of other programs are never touched; when the run is over, successful or not, its volumes are gone (if the engine does not fail to remove them).", "quantifier": "all histories of mounts, writes and unmounts of any number of tasks, interleaved in any way with each other and with other programs' use of the engine; all failures; Docker and Podman", "why_tests_cant": "depends on every interleaving and on every point at which a run may fail; a volume that outlives its task or is shared shows only with the right neighbour", "anchors": ["runtime/docker/volume.go:Mount", "runtime/docker/volume.go:Unmount", "runtime/podman/volume.go:Mount", "runtime/podman/volume.go:Unmount", "runtime/docker/docker.go:Run", "runtime/podman/podman.go:Run", "runtime/docker/tcontainer.go:createTaskContainer"]}
{"id": "C93", "title": "Host variables stay with the container", "statement": "The values of the worker host's variables that a configuration exposes to tasks go into the container and not back: the report on a task's outcome is the same whatever the host's values are (unless the container shows them), its environment is the one that was sent to the worker, and nothing the coordinator stores while handling the report that the task started depends on them.", "quantifier": "all hosts, variables, orders of the map walk, tasks, runtimes and failures of the broker; for the coordinator, all stored states and database failures", "why_tests_cant": "a statement about two runs that differ in the host's values, for every task and every runtime; the leak needs a redelivery at the right moment", "anchors": ["middleware/task/hostenv.go:Execute", "internal/worker/worker.go:doHandleTask", "internal/worker/worker.go:runTask", "internal/coordinator/handlers/started.go:handle", "internal/coordinator/handlers/redelivered.go:handle", "broker/rabbitmq.go:subscribe"]}
{"id": "C94", "title": "What a configuration switches on", "statement": "Each power a configuration can give over a worker's host (the shell runtime, bind mounts, privileged containers, the host's network) is there only if its own setting says so; unset settings mean the documented defaults; secrets are redacted unless switched off; a type nobody knows makes the start fail; locks live where the named store lives; each queue on which work is reported has a consumer, and coordinators and workers never take each other's messages; Start sets parts up after what they need and reports success only if all of them run.", "quantifier": "all configurations, readings of values, registered providers, mounters and middlewares, queue settings, failures of parts, modes", "why_tests_cant": "the wiring code is a product of dozens of independent settings; tests fix a few of them, and a default that is wrong shows only in a combination nobody tried", "anchors": ["engine/engine.go:runStandalone", "engine/worker.go:initWorker", "engine/worker.go:initRuntime", "engine/coordinator.go:initCoordinator", "engine/coordinator.go:echoMiddleware", "engine/locker.go:initLocker", "engine/datastore.go:initDatastore", "engine/broker.go:initBroker", "internal/coordinator/coordinator.go:NewCoordinator", "internal/worker/worker.go:Start", "broker/queues.go:IsCoordinatorQueue"]}
{"id": "C95", "title": "Stopping the in-memory broker", "statement": "Once a shutdown is through, the coordinator's handlers have ended and are given nothing any more, whatever is published later; a shutdown never outlasts its deadline, waits for nothing but handlers that are running, and gets through when they end; a second one does not wait; the health check fails from then on.", "quantifier": "all interleavings of subscriptions, publications, handlers, events and the steps of the shutdown; all queues, topics and orders in which they are visited", "why_tests_cant": "the shutdown runs concurrently with every publisher and handler; what goes wrong needs one particular order", "anchors": ["broker/inmemory.go:Shutdown", "broker/inmemory.go:close", "broker/inmemory.go:subscribe", "broker/inmemory.go:publish", "broker/inmemory.go:PublishEvent", "broker/inmemory.go:HealthCheck", "internal/worker/worker.go:Stop", "internal/coordinator/coordinator.go:Stop"]}
{"id": "C96", "title": "What the metrics and queue figures say", "statement": "Each figure of GET /metrics (running jobs, running tasks of running jobs, nodes heard of in five minutes, their mean load) is exact at an instant during the call, and the call gives all of them or fails; the nodes counted are those GET /nodes lists. A queue is reported iff it is listed, with the listed figures; for the in-memory broker size and unacked together are the messages outstanding, give or take one for each subscriber.", "quantifier": "all contents of the database and all changes to it during the call; all answers of the management interface; all interleavings of publishers and subscribers", "why_tests_cant": "the figures are read one after another while everything changes", "anchors": ["datastore/postgres/postgres.go:GetMetrics", "datastore/postgres/postgres.go:GetActiveNodes", "internal/coordinator/api/api.go:getMetrics", "internal/coordinator/api/api.go:listQueues", "internal/coordinator/api/api.go:getQueue", "broker/rabbitmq.go:Queues", "broker/rabbitmq.go:QueueInfo", "broker/inmemory.go:Queues"]}
{"id": "C97", "title": "A live node is shown alive, a dead one is not", "statement": "While a node runs and health checks, publications and handling together stay within the bound of two heartbeat periods, it is never shown OFFLINE, is among the active nodes, and the status shown is one it reported in the last minute; a node that sends nothing any more is not shown UP after a minute and not listed as active after five; nothing is sent once it has stopped.", "quantifier": "all timings, orders, duplications and interleavings of heartbeats within the stated bounds; all histories of other nodes", "why_tests_cant": "real-time bounds over unbounded histories", "anchors": ["internal/worker/worker.go:sendHeartbeats", "internal/worker/worker.go:Stop", "internal/coordinator/coordinator.go:sendHeartbeats", "internal/coordinator/handlers/heartbeat.go", "datastore/postgres/record.go:toNode"]}
{"id": "C98", "title": "Images for Podman", "statement": "An image asked for is answered without an error only if Podman had it at some time (or a container bears its name), and while nobody removes images it is there when the container is created; an error is given only if that request's own pull failed; every request is answered, in a bounded number of steps, whatever the others do.", "quantifier": "all numbers and interleavings of requests; all outcomes of Podman's commands; all removals", "why_tests_cant": "concurrent requests share one pulling goroutine and a cache", "anchors": ["runtime/podman/podman.go:imagePull", "runtime/podman/podman.go:puller", "runtime/podman/podman.go:doPullRequest", "runtime/podman/podman.go:imageExistsLocally"]}
{"id": "C99", "title": "A scheduled job is stored and read back whole", "statement": "A scheduled job is accepted by the database exactly when its id is new, its creator (the guest by default) and everybody in its permissions exist and every column can hold its value; it is then read back with everything it was given, creator and permissions resolved to users and roles; a starting coordinator gets exactly the active ones; an update changes the state and nothing else; the job made at a tick can itself be stored.", "quantifier": "all scheduled jobs, tables of users and roles, and histories of statements; any encryption that can be undone", "why_tests_cant": "fifteen columns bound by position in one statement and read by name in another, with JSON in between; tests compare a few fields of a few jobs", "anchors": ["datastore/postgres/postgres.go:CreateScheduledJob", "datastore/postgres/postgres.go:GetScheduledJobByID", "datastore/postgres/postgres.go:GetActiveScheduledJobs", "datastore/postgres/postgres.go:UpdateScheduledJob", "datastore/postgres/record.go:toScheduledJob", "db/postgres/schema.go:scheduled_jobs"]}
{"id": "C100", "title": "A job read back contains the document that was sent", "statement": "When a JSON document is accepted as a job and stored, the job read back says everything the document said: every field that is not empty, at every depth (hooks, sidecars, mounts, nested tasks, sub-jobs, defaults, webhooks), is in the same place with the same value, except how long to wait, which is not kept, and the id of a sub-job, which is ignored. The permissions come back naming the same roles and users.", "quantifier": "all JSON documents, nested to any depth, all tables of jobs, users, roles and permissions, any encryption that can be undone", "why_tests_cant": "four hand-written conversions (input struct, job, row, job, JSON) with some sixty fields each way; tests compare a few fields of a few documents", "anchors": ["internal/coordinator/api/api.go:bindInputJSON", "input/job.go:ToJob", "input/task.go:toTask", "datastore/postgres/postgres.go:CreateJob", "datastore/postgres/postgres.go:GetJobByID", "datastore/postgres/record.go:toJob", "job.go:Job", "task.go:Task"]}
{"id": "C101", "title": "Users, roles and who has which", "statement": "After any history of requests, each accepted or refused: everybody who was created, and nobody else, is found by user name and by id with exactly what was given (and not disabled); roles likewise by slug and id; a user has exactly the roles that were assigned and not taken away since, each once. A user is accepted exactly when name and password are given, nobody has the name and the columns can hold the rest; an assignment exactly when user and role exist and the user does not have the role yet.", "quantifier": "all histories of creating users and roles, assigning and taking away, from the migrated database; any way of writing ids that tells them apart", "why_tests_cant": "the lookup matches two columns at once, columns are bound by position, uniqueness and references are enforced by the schema only; tests create one user and one role", "anchors": ["internal/coordinator/api/api.go:createUser", "datastore/postgres/postgres.go:GetUser", "datastore/postgres/postgres.go:CreateUser", "datastore/postgres/postgres.go:CreateRole", "datastore/postgres/postgres.go:GetRole", "datastore/postgres/postgres.go:GetRoles", "datastore/postgres/postgres.go:GetUserRoles", "datastore/postgres/postgres.go:AssignRole", "datastore/postgres/postgres.go:UnassignRole", "datastore/postgres/record.go:toUser", "db/postgres/schema.go:users_roles", "input/validate.go:validatePermission"]}
{"id": "C102", "title": "A scheduled job contains the document that was sent, and so does every job it makes", "statement": "Once a scheduled job is created, reading it returns every field of the document sent (nested tasks, inputs, secrets, defaults, webhooks, auto-delete, tags, output), the cron text it was given, state ACTIVE, and each permission with the role or user it named. Every job made from the stored record at a tick contains the same document, defaults apart, and the cron text; permissions likewise. Defaults, schedule and the job's id and name in the context apart, it is the job that submitting the document without its schedule makes.", "quantifier": "all JSON documents without repeated keys that the API decodes (tasks nested to any depth, no sub-job id sent), all tables of users, roles and scheduled jobs, all who may ask, all later ticks", "why_tests_cant": "a field dropped in one of four conversions (document, record, row, instance) is only seen with a document that uses it; tests compare a few fields", "anchors": ["internal/coordinator/api/api.go:createScheduledJob", "internal/coordinator/api/api.go:submitScheduledJob", "input/job.go:ScheduledJob", "input/job.go:ToScheduledJob", "job.go:ScheduledJob", "datastore/postgres/postgres.go:CreateScheduledJob", "datastore/postgres/postgres.go:GetScheduledJobByID", "internal/coordinator/handlers/schedule.go:handleActive"]}
