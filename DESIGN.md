# Formal model of runabol/tork in Rocq (Coq 8.16.1)

## 1. Approach

* The **coordinator core** (handlers, scheduler, queue wrappers, API job endpoints) is one model:
  every Go handler becomes a *program* (`prog`, `World.v`): a tree of atomic datastore/broker
  operations with explicit outcomes `Ok | Err | Panic`. Each operation may fail (an adversarial stream of fault bits
  in the world). The same program has two semantics: `run` (one handler alone, start to finish) and an
  interleaving machine (`System.v`): any number of handler threads, one operation at a time,
  messages taken from the *history of everything ever published* (so loss, reordering and duplication are all allowed),
  threads may be killed at any point (crash).
* State-machine properties (C01-C06, C09, C11-C13, C25 ...) are proved as invariants of that machine with a small rely/guarantee rule: every operation of
  every handler preserves the invariant from every state that satisfies it, whatever other threads did in between.
* Functional properties of one handler (C10, C14-C24, C26-C30 ...) are proved about `run`, for all stores, messages and oracles.
* Everything else (wildcard, cache, broker, log shipper, redaction, webhooks, engine, ...) is a
  separate small model with its own spec.
* External behaviour (expr-lang evaluation, runtimes, AES, bcrypt, the SQL engine below the statement level, HTTP
  servers, the clock) enters as function parameters/oracles, universally quantified in the theorems.
* A property that is false of the code gets a `..._refuted : exists ...` theorem with the counterexample, plus the
  strongest true statement we can prove (with the excluded case explicit).

Files: model files hold definitions only; `*Proofs.v` the lemmas; `Props*.v` only the
property theorems (`exact lemma.`), non-vacuity examples and `Print Assumptions`.

## 2. Per-property plan

| id | modelled | how proved |
|---|---|---|
| C01 | all handlers as programs, jobs table | guarantee on every job-table write: allowed edge relation; lifted to all machine executions |
| C02 | same | the edge relation makes COMPLETED absorbing without a PENDING delivery; `_refuted` for duplicated PENDING |
| C03 | same | CANCELLED absorbing without RESTART/PENDING deliveries |
| C04 | tasks table | guarantee on every task-table write |
| C05 | completed handler | guard lemma for three paths, for all worlds; refuted for SKIPPED duplicates |
| C06 | completed handler with fault bits, tx | case analysis over all fault positions |
| C07 | completed handler + FIFO run | functional lemma + induction on the task list |
| C08 | progress arithmetic | lia/nia over Z |
| C09, C11, C12 | machine invariant counting children | induction over machine steps; each abstract counter machine for the bound |
| C10 | scheduleEachTask | induction over the list |
| C13 | retry records in store and history | machine invariant |
| C14-C24 | handler `run` | symbolic execution, induction over active task list |
| C25 | redelivered handler | machine invariant + chain lemma |
| C26 | coordinator wrappers | symbolic execution |
| C27 | startJob / completeTopLevel / restart | theorem for start; `_refuted` for the others |
| C28-C30 | completeJob, context update | symbolic execution |
| C31 | WithTx over an operation-list language with nesting | induction over programs |
| C32 | GetJobs where-clause | relational spec |
| C33 | offset/limit arithmetic | list lemmas |
| C34 | expunge + interval | invariant over passes |
| C35 | encrypt/decrypt secrets with AES as oracle (dec(enc)=id) | map induction; refuted for context |
| C36 | heartbeat handler | fold over heartbeats equals max; permutation |
| C37 | log shipper | invariant over write/tick |
| C38 | in-memory broker | refinement to per-queue FIFO |
| C39 | Clone functions, value level and heap level | nested induction; heap-separation |
| C40 | queues, validation, eval | decision lemma, refuted witness |
| C41 | wildcard.Match (DP) | equivalence with inductive glob |
| C42 | template splitter | equivalence with declarative spec |
| C43 | redact | no-substring lemma |
| C44 | cache | refinement to timed map |
| C45 | locker | invariant |
| C46 | middleware chain | induction |
| C47 | webhook.Call, job/task webhook middleware | induction over responses |
| C48 | engine | state machine |
| C49 | multi mounter, bind mounter | invariant over calls |
| C50 | validators | recursion over inputs |
| C51 | schedule handler | invariant over histories, refuted witnesses |
| C52 | worker | symbolic execution, invariant over run/cancel |
| C53 | health | list lemma |
| C54 | shell/docker run order | induction |
| C55 | hostenv | list lemmas |
| C56 | API endpoints | case analysis |
| C57 | handlers' Panic outcome | refuted + no-panic theorem under the invariant |
| C58 | progress handler | arithmetic |
| C59 | FIFO run of whole system | induction on number of tasks |
| C60 | handlers | guarantee: writes only rows of the named job/parents |
| C61 | see properties.jsonl | partial |
| C62 | WebAuth.v: echoMiddleware, basicAuth, keyAuth and NewAPI's routes as functions on requests; a chain lemma for guards, for every chain and request | proved |
| C63 | Accounts.v: createUser as check and insertion steps of a transition system over the users table; invariant by induction; composed with C62 | proved |
| C64 | Roles.v: NewCoordinator/Start and NewWorker/Start as functions on queue maps walked in any order | proved |
| C65 | Wire.v: the json tags of every struct as encoder and decoder on JSON trees (omitempty, '-'); lookup lemma for objects with distinct names, then induction on the nesting | proved |
| C66 | Rows.v: schema, insert/update column lists and argument lists, scanning by column name; abstraction of rows to tasks and jobs, refinement of create/update/read; composed with the machine's step theorems | proved |
| C67 | Rabbit.v: server queues, consumers with prefetch 1, goroutine phases, history of events; one invariant over all steps, a counting invariant for at-most-once | proved |
| C68 | RabbitStop.v: place of every subscription's goroutine and of Shutdown's loop; monotone places | proved |
| C69 | Topics.v: AMQP topic matching, key translation, composed with C41 | proved |
| C70 | Wait.v: events by strengthening the machine's message invariant; the waiting request as a transition system over all schedules | proved |
| C71 | Images.v: Runs, puller, pruner (holding the mutex) and engine as a transition system; invariants over the timed history | proved |
| C72 | SpecRun.v, AbsLive.v (rows, jobs and messages reduced to states, counters and weights: one invariant and a multiset measure), RunEval.v, RunSim.v (every handler simulates abstract steps), PropsRun.v | proved |
| C73 | RunSim.v carries, along every handler, the number of worker messages per task; PropsRun.v states it | proved |
| C74 | Container.v: createTaskContainer as a function to the configuration and archives handed to the engine, followed by docker's documented rules for the process that results | proved |
| C75 | DockerLogs.v: the reader as a function on a byte stream, io.Copy and io.ReadAll as loops; Wait as a function of status, tail and output | proved |
| C76 | ShellRun.v: a small POSIX layer (identities, files, directories) and doRun/reexecRun as functions on it | proved |
| C77 | Podman.v: doRun as a function of the answers of the podman commands on the file system of ShellRun; a parser of `podman create` arguments | proved |
| C78 | Regex.v: leftmost-first regular expressions with groups, sound and complete for their language; Creds.v: parseRef, base64 and the lookup of credentials | proved |
| C79 | Conf.v: LoadConfig and the getters over trees of tables; merging and building of the environment's tree as in the library | proved |
| C80 | Progress.v: the reporting loop over an arbitrary list of readings and broker answers | proved |
| C81 | Sidecar.v: start and probing of all containers of a task as a trace; URL authority as specification | proved |
| C82 | DbPool.v: every datastore call as a list of take-a-connection / lock-a-row / release, with the receiver (pool or transaction) explicit; any number of handlers, any interleaving; rows ranked children < parents < jobs < released task, maximal waiter argument, counting of connections; work measure for termination; counterexamples for every pool size | proved |
| C83 | RabbitConn.v: pool, turn, believed queues and the server's connections and queues; invariant: a queue believed to exist exists or some slot is closed; an exclusive queue's owner is in the pool; cyclic distance for the number of attempts | proved |
| C84 | PropsResult.v: the second rely/guarantee layer (Effects.v) carries where every message about a task comes from and that a recorded completion is the handled message's; the broker's history only grows | proved |
| C85 | PropsSubResult.v: the second rely/guarantee layer is parameterised by a predicate D on (parent, result) assumed of every COMPLETED job of the execution; each published completion of a sub-job's task satisfies it; D is instantiated with 'was completed at some earlier configuration' | proved |
| C86 | LogEnd.v: composition of the shipper (LogShip.v), the transport (identity, or JSON's replacement of invalid UTF-8), the log handler and the insert, and the paged listing (Listing.v); sorted permutations with distinct keys are unique | proved |
| C87 | ApiView.v: every endpoint as a function from what is found in the store to the value answered; reads by C43, summaries by independence (two jobs that differ in the hidden fields have the same answer) | proved |
| C88 | Query.v: strings.Fields, Split and the loop of parseQuery as functions; a relational specification of layouts and meanings, shown to determine the result and to cover every text; composed with C32 | proved |
| C89 | LogTail.v: process, copier and run as a transition system with the pipe between them; invariant output = logged ++ held ++ unread; composed with LogEnd (C86) | proved |
| C90 | Archive.v: the USTAR writer and reader of archive/tar as functions on bytes (fields, octal numbers, checksum, padding); reading inverts writing by induction over the entries, with and without the end mark | proved |
| C91 | Priority.v: the queue's declaration, the message's priority byte and the server's rule for the next message; an invariant ties what the queue holds to the history (published; given back as often as handed out) | proved |
| C92 | Volume.v: the two mounters on one engine's volumes; an invariant ties each mounted volume's content to the history of writes through it; a whole run is taken from Runtime.v (C54), the volume a container uses from Container.v (C74) | proved |
| C93 | HostLeak.v: the hostenv middleware (C55) inside the worker (C52): two executions under two hosts compared; the start report compared in the coordinator's handler for two environments; the leaks as executions of the machine | proved |
| C94 | Wiring.v: the init functions over the settings of Conf.v (C79); each conclusion stated by the setting's own presence and reading; queue consumers counted for every map of settings; start as the prefix of a mode's parts | proved |
| C95 | MemStop.v: the subscriptions' and topics' goroutines, the goroutine started by Shutdown and its caller as one transition system; an invariant for each subscription (to come, or told and gone); progress by construction of a run in which only handlers end | proved |
| C96 | Metrics.v: the four statements as queries on the tables of four instants, counted against a specification by lists without repetition; the management interface's answer as data; a queue of the in-memory broker with its subscribers' steps, and an invariant | proved |
| C97 | Alive.v: the heartbeat loop as a timed transition system whose bounds are parameters; an invariant on the age of the newest heartbeat; composed with Heartbeat.v's theorem on what is stored and shown | proved |
| C98 | PodmanPull.v: calls, channel, puller and Podman's storage as a transition system; an invariant (who waits is queued or served, once) and a decreasing measure | proved |
| C99 | SchedRows.v: the statements column by column over tables of rows, as for C66, with users, roles and permissions; a representation invariant kept by every statement | proved |
| C100 | Submitted.v: strict decoders for the input types, composed with to_def (C50), create_job/get_job over rows (C66) and enc_job (C65); containment of JSON values as an inductive relation, by induction on the depth of the document | proved |
| C101 | UserRoles.v: the three tables as rows (as in C66) with their unique columns and references; histories of operations with their outcome; representation invariant by induction on the history | proved |
| C102 | SchedDoc.v: decoding (as Submitted.v), ToScheduledJob, the row (C99), the JSON of the record and of an instance; containment `within` field by field over the generic struct lemma of C100 | proved |

## 3. Trusted base

* Coq 8.16.1 kernel (and `coqchk`).
* Axioms: none of our own. `Print Assumptions` output is listed in section 5.
* The reading of the Go source: each definition cites file and lines.

## 4. What is modelled and what is not

### 4.1 Coordinator core (one model, `Types World Eval Clone Handlers System`)

Modelled function by function: `task.go`, `job.go`, `mount.go`, `user.go`, `role.go` (types, `IsActive`, all `Clone`s);
`internal/eval/eval.go` `EvaluateTask`; `internal/coordinator/scheduler/scheduler.go` (all four kinds of task);
`internal/coordinator/handlers/` `pending started completed error job cancel progress redelivered heartbeat`;
the queue wrappers and subscriptions of `coordinator.go:238-337`; job submission, cancellation and restart of `api/api.go`;
`broker/queues.go`; the row-level behaviour of `postgres.go` used by them (`CreateTask/UpdateTask/CreateJob/UpdateJob/Get*/WithTx`).

Adversary of the interleaving machine (`System.v`): any number of coordinators and API servers; one atomic operation at a time; every datastore
or broker call may fail without effect, also the commit; a thread may die at any point; every message ever published may be delivered any number of times,
in any order, or never; workers may send any report about any task message they could have received; the broker may redeliver any task message;
nodes may send any heartbeat; the clock may move arbitrarily.

Simplifications (each also in the comment of the definition concerned):
* identifiers are numbers handed out by a counter (uuid collisions do not happen); times are integers; Go `int`/`float64` progress are unbounded integers
  (progress in 1/100 %, the resolution of the column);
* an operation that fails has no effect (a commit that succeeds but reports an error is not modelled; see findings); a transaction body is one atomic operation
  (row locks are held until commit), except the write and publication that the code itself does outside the transaction (`completed.go:84-97`), which survive a rollback;
* template evaluation, list evaluation and duration parsing are an arbitrary oracle (`oracle`, universally quantified), deterministic in the context
  (expr functions such as `randomInt` make the same expression evaluate differently: theorems only use each evaluation once);
* error texts are abbreviated; a wrapper's error text is that of the error; log output, metrics and middleware are not part of the handlers (middleware: `Middleware.v`);
* `GetNextTask`/`GetActiveTasks` return rows in insertion order (SQL leaves it open);
* map iteration order is list order; nil and empty maps are identified;
* `CreateTask` row contents: columns not stored are reset (`db_task`); the JSON encoding itself is the identity.

### 4.2 Components (one file each, own specification inside)

| file | code | abstracted |
|---|---|---|
| Wildcard | internal/wildcard | bytes instead of runes |
| Cache | internal/cache | time is a parameter; one operation at a time (all are under the mutex) |
| Locker | locker/inmemory.go, locker/postgres.go | advisory locks as a table of session locks, hash as a parameter |
| LogShip | broker/log.go | ticker and writes interleaved arbitrarily; broker failures arbitrary |
| Middleware | middleware/{job,task,node,log} chain building | handlers as functions over an arbitrary state |
| Webhook | internal/webhook, middleware/{job,task}/webhook.go | HTTP responses are an arbitrary list; backoff as data |
| Engine | engine/engine.go | components start or fail arbitrarily |
| Worker | internal/worker/worker.go run/cancel/heartbeat task count | runtime outcome arbitrary; goroutines interleaved per operation |
| Runtime | docker.go, podman.go, shell.go `Run` order and cleanup | container engine is an arbitrary oracle |
| Mounts | runtime/multi.go, docker/bind.go, docker/tmpfs.go | mounter outcomes arbitrary; filesystem as predicates |
| Health | health/health.go | indicators arbitrary |
| HostEnv | middleware/task/hostenv.go | host environment arbitrary |
| Validate | input/*.go validation | validator library tags transcribed; cron/expr/duration parsers are predicates |
| Scheduled | handlers/schedule.go, scheduled-job API | cron library as a table of entries |
| ApiGuards | api.go guards, page parsing, user creation, queue deletion | HTTP plumbing |
| Listing | postgres.go listings and paging | SQL as filter/sort/slice on lists |
| Cleanup | postgres.go cleanup | session time zone offset as parameter |
| Heartbeat | handlers/heartbeat.go, node status | |
| Tx | postgres.go WithTx/get/exec | statements as list updates |
| Secrets | internal/encrypt, CreateJob/GetJob secrets | AES-GCM as encrypt/decrypt with `dec k (enc k n x) = x` and failure otherwise |
| Template | eval.go EvaluateTemplate, ValidExpr, sanitize | regular expression transcribed as a matcher |
| Redact | internal/redact, middleware/*/redact.go | |
| InMemBroker | broker/inmemory.go | channels and goroutines as an interleaving machine |
| CloneHeap | Clone functions and EvaluateTask on a heap with slices/maps/pointers | |
| WebAuth | engine/coordinator.go web middlewares, NewAPI routes | echo's own middlewares from their documentation; router = any choice among matching routes; custom middlewares act on endpoints only through next |
| Accounts | createUser, GetUser/CreateUser, basicAuth over histories | bcrypt ideal (hypothesis), fresh ids (hypothesis of the step) |
| Roles | NewCoordinator/NewWorker queue maps, Start | the broker accepts or refuses each subscription arbitrarily |
| Wire | json tags of task.go, job.go, mount.go, user.go, role.go; rabbitmq.go serialize/deserialize | JSON as trees; encoding/json's text form not modelled |
| Wait | the wait branch of createJob (api.go:318-352), its event handler, echo's answer and context pool as three steps | ID() is atomic; JSON encoding not modelled |
| Images | docker.go imagePull, puller, doPullRequest, verifyImage, prune, the count of running tasks (docker.go:137-146, 345-456, 469-514) | order of waiting requests arbitrary; parseRef and configured credentials are parameters |
| Container | tcontainer.go createTaskContainer, initTorkdir, initWorkDir; docker.go parseCPUs, parseMemory; archive.go | engine rules from its documentation; number parsers, GPU option parser and slug are parameters |
| DockerLogs | docker.go dockerLogsReader.Read, tcontainer.go Wait, readOutput; io.Copy, io.ReadAll | the connection as a list of bytes with arbitrary read sizes; archive as list of contents |
| ShellRun | shell.go NewShellRuntime, doRun, reexecRun, buildEnv; setid_unix.go; reexec/command_linux.go | paths resolved lexically, directories writable by the worker; flag parsing assumed |
| Podman | podman.go doRun, stop, imagePull | paths lexical; answers of podman arbitrary; options of `podman create` as documented; progress not modelled |
| Regex, Creds | reference.go, auth.go (lookup, decoding), docker.go doPullRequest | ASCII texts; helper programs answer arbitrarily; JSON decoding of the configuration not modelled |
| Conf | conf.go LoadConfig, String, Strings, the ...Default getters | koanf (merge, environment provider) from its documented behaviour; TOML and number parsing not modelled |
| Progress | reportProgress/readProgress of docker, podman, shell; the value stored by handlers/progress.go | floats as integers plus NaN; ten-second steps |
| Sidecar | docker.go doRun (start order, probes), removeNetwork; tcontainer.go Start, probeContainer | engine and answers arbitrary; redirects of the HTTP client not modelled |
| RefGrammar | independent grammar of image references, proved equal to reference.go's expressions (Creds.v) | bytes |
| DbPool | postgres.go WithTx, get/select_/exec, UpdateTask, UpdateJob, UpdateNode, UpdateScheduledJob, CreateTask, CreateTaskLogPart, CreateJob, NewPostgresDataStore (pool limit); completed.go transactions | connections and row locks only; not the rows' contents, not deletions |
| RabbitConn | rabbitmq.go NewRabbitMQBroker, getConnection, declareQueue, subscribe up to Consume, the re-subscription loop, DeleteQueue, closing in Shutdown | calls are atomic; messages in Rabbit.v, goroutines in RabbitStop.v |
| LogEnd | broker/log.go, internal/coordinator/handlers/log.go, postgres.go:878-894, 963-995, record.go:306-314, transport of log parts | ids of rows and creation times other than for order left out; Postgres text and JSON replacement are part of the model |
| ApiView | answers of api.go 299-361, 423-565, 594-653, 728-789, job.go:267-302, middleware/{job,task,log}/redact.go | the value answered, not its JSON text |
| Query | postgres.go:1661-1675 | white space of ASCII only |
| LogTail | tcontainer.go:259-329, shell.go:187-255, podman.go:330-352 | the Docker stream without its frames (C75); the logger is the shipper alone |
| Archive | archive.go, tcontainer.go:456-513, 514-579; Go's archive/tar (USTAR) | no PAX records; unsigned checksum; no base-256 numbers; file system calls succeed |
| Priority | rabbitmq.go:25-36, 454-531, queues.go:51-70 | one queue; the server's hand-out rule is RabbitMQ's documented one; no expiry or loss (Rabbit.v) |
| Volume | docker/volume.go, podman/volume.go; runs: Runtime.v; mounts of containers: Container.v | a volume's content is the list of data written; no volume options; one engine |
| HostLeak | hostenv.go inside worker.go; started.go | one middleware; composition of HostEnv.v, Worker.v, Handlers.v, System.v |
| Wiring | engine/{engine,worker,coordinator,locker,datastore,broker}.go; who subscribes to which queue | names, pools, addresses, durations left out; constructors only fail or not |
| MemStop | broker/inmemory.go: Shutdown, close, subscribe, publish, topics | messages counted, not looked at; finding/creating a queue is one step; no DeleteQueue |
| Metrics | postgres.go GetMetrics, GetActiveNodes; rabbitmq.go Queues, QueueInfo; inmemory.go figures | load as whole numbers with an exact mean; one queue at a time; session time zone as parameter |
| Alive | worker.go sendHeartbeats, Stop; coordinator.go sendHeartbeats | one clock; health check's answer arbitrary; bounds on durations as parameters |
| PodmanPull | runtime/podman/podman.go imagePull, puller, doPullRequest, imageExistsLocally | outcomes of commands arbitrary; images as numbers |
| SchedRows | datastore/postgres/postgres.go CreateScheduledJob, GetScheduledJobByID, GetActiveScheduledJobs, UpdateScheduledJob, GetUser, GetRole, record.go scheduledJobRecord, schema.go scheduled_jobs(_perms) | as Rows; rows come back in the order they went in; ids never collide with user names or slugs |
| Submitted | internal/coordinator/api/api.go bindInputJSON, input/job.go and input/task.go (JSON shapes) | exact keys (Go also accepts other capitals), integer numbers, no duplicate keys, no YAML; redaction apart (C43) |
| UserRoles | postgres.go GetUser, CreateUser, CreateRole, GetRole, GetRoles, GetUserRoles, AssignRole, UnassignRole, record.go toUser, toRole, schema.go users, roles, users_roles, api.go createUser | as Rows; order of roles, id and time of an assignment left out; trimming and hashing left open |
| SchedDoc | input/job.go ScheduledJob, ToScheduledJob, job.go ScheduledJob (JSON), api.go createScheduledJob, getScheduledJob | JSON only (not YAML); the answer of GET is the record's JSON; decoding as in Submitted; a document without schedule is refused before conversion |
| Rabbit | rabbitmq.go PublishTask, SubscribeFor*, subscribe loop, publish, serialize/deserialize types, DeleteQueue | the server by AMQP rules; order, priorities and time are open; connection pool not modelled |
| RabbitStop | subscribe goroutine, Shutdown | handlers as opaque work; closing of connections as one step |
| Topics | SubscribeForEvents, PublishEvent of both brokers | server's topic matching as a rule |
| Rows | CreateTask, UpdateTask, GetTaskByID, CreateJob, UpdateJob, GetJobByID, toTask, toJob, schema of tasks and jobs | row locks and transactions are in World/Tx; lengths in bytes; time precision and numeric(5,2) rounding not modelled |

### 4.3 Not modelled

RabbitMQ transport (connection recovery, acknowledgements) beyond "messages may be lost, duplicated, reordered, redelivered"; the SQL engine below statement level;
docker/podman API calls themselves; the web framework; the CLI; metrics; the web UI.

## 5. Assumptions printed

Every `Props*.v` and component file ends its theorems with `Print Assumptions`; all of them print `Closed under the global context`: **no axioms**,
neither own nor from libraries. (`vcheck` lists constants of `Coq.ssr.ssrunder` among the axioms of the loaded context, because the RecordUpdate/ssreflect libraries are loaded;
no theorem depends on them.)

Trusted besides: the transcription of the Go code (comments cite file and lines), the statement vocabulary (`Spec*.v`), and for `_refuted` theorems
nothing but the model, as they are closed existential statements checked by computation.

## 6. Findings

Behaviour of the code that contradicts what a user might expect. Those with a machine-checked witness end in `_refuted` in the sources.

Coordinator:

* A duplicated submission message restarts a job whatever its state, also a COMPLETED one (C02_duplicate_submission_refuted).
* `cancelActiveTasks` writes CANCELLED unconditionally after an earlier read: a task completed in between becomes CANCELLED (C04_completed_to_cancelled_refuted); a missing node or sub-job record aborts the loop midway.
* A duplicated completion of a SKIPPED task is accepted again: position and parent counters advance twice, and a job can complete with a task that never ran.
* A duplicated completion of a COMPLETED task is refused *as an error*: the task goes through the error handler, so the job fails or a retry is started.
* A completion for a PENDING or CREATED row marks the task FAILED.
* RabbitMQ redelivery applies to messages of any queue: a redelivered pending task with an explicit queue goes straight to workers, its completion then finds the row PENDING and is refused.
* each with concurrency: a child that completes before its later siblings are created finds no next task and fails the job; releasing the next child is outside the transaction, so after a failed commit and retry two children are in flight with concurrency 1.
* All children of an each task share the command slice of the definition: with templated commands all run the first element's command.
* An each task over an empty list stays RUNNING for ever; a negative concurrency (possible inside sub-jobs only) releases no child.
* A task result containing a zero character is cleaned in the task's own column but not in the job's context, so the update of the job is refused and the job fails (C66_zero_in_context_refuted).
* Validation admits values the tables refuse: a timeout of more than 8 characters (`1h30m15.5s`), a name, image or queue of more than 256: the task cannot be created and the job stays SCHEDULED (Rows.v, C66_tasks_nonvacuous).
* RabbitMQ: PublishTask does not create the queue its comment says it creates; a task published before any worker subscribed is dropped and nil returned (C67_publish_before_subscribe_is_lost_refuted). There are no publisher confirms, and messages are published without a delivery mode (transient), so also durable classic queues lose their messages when the server restarts.
* RabbitMQ: a redelivered task whose publication to the redeliveries queue fails is acknowledged and lost (C67_failed_forward_loses_the_task_refuted); redelivery is only detected for tasks, so jobs can be handled twice (C67_jobs_handled_twice_refuted); a handler's error drops the message.
* RabbitMQ: a message that cannot be decoded (also every *tork.TaskProgress, which serialize accepts and deserialize does not) is never acknowledged and blocks its consumer (C67_unreadable_message_blocks_its_consumer).
* RabbitMQ: after a re-subscription on a coordinator queue, Shutdown blocks forever (C68_shutdown_hangs_after_a_reconnect); Shutdown also iterates over the subscriptions map without the lock.
* RabbitMQ: b.queues remembers declared queues and is only cleared when a closed connection is found in the pool, so a re-subscription after a queue was deleted (or an exclusive queue vanished with its connection) skips the declaration, fails 20 times and gives up. Priorities are truncated to 8 bits (:495).
* Waiting submissions: two tasks of a parallel task that fail before either failure is handled give two job.failed events (C70_one_failure_event_refuted, no message delivered twice); the second event closes a closed channel on the broker's goroutine, which nothing recovers: the coordinator process ends (C70_crash_refuted). A restart of a failed job whose submitter waited does the same.
* Waiting submissions: after a timeout the subscription lives on (for ever with the in-memory broker, for a moment with RabbitMQ, whose subscription goroutine then stays blocked on sub.done for ever: C68_event_subscription_ends). A late event is written through the echo context, which by then may serve another client's request (C70_other_client_refuted), or appended to the error document (C70_one_document_refuted). The document is the whole job, not redacted.
* Waiting submissions: cancellation publishes no event, so a client waiting for a cancelled job waits until its timeout; the handler's test for CANCELLED is dead. job.ID() is generated lazily and without synchronisation by whichever of the event handler and the submission comes first. An event that is not a *tork.Job is logged and then dereferenced (also engine.go:342-346). The in-memory topic calls the handler under a read lock on an unbuffered channel: a slow client blocks every PublishEvent, that is, the job handlers.
* Images: an image pulled with one task's credentials is served to every later task without credentials (C71_shared_credentials_refuted). Images the host had before are pruned, or removed by force when a verification fails, which it also does when the task is cancelled meanwhile, since the test uses the request's context (C71_foreign_image_refuted, C71_forced_foreign_refuted). The age of an image counts from the last request, so that an image used by a long task is removed as soon as it ends (C71_long_task_refuted). An image another program removed is remembered and never pulled again, and makes every later round of the pruner end with an error at that entry (C71_stale_refuted). imageExistsLocally compares with RepoTags, so that a name without a tag or a digest never matches and is pulled on every start. Pulling is serial and the queue ignores the request's context: one slow pull delays every task's start and cancellation.
* Liveness (C72) needs its premises: an each task over an empty list and a parallel task without tasks never complete, since only the completion of a child completes them (scheduler.go:223,283). A start report that arrives after its job is over and names a node that is not registered makes the started handler fail; the error handler then fails the (finished) job of the task, and if it was a sub-job publishes its parent on the error queue, which fails the parent job (started.go:37-47, error.go).
runtime/docker/tcontainer.go:120-127: a task (or sidecar) with only an image gets the command "/tork/entrypoint", which replaces the image's own CMD although the file is only created for a script; a task with both `cmd` and `run` never runs its script (C74).
runtime/docker/docker.go:323: a CPU limit outside int64 nanos wraps around silently; 2^64 nanos becomes 0, that is, unlimited (C74).
runtime/docker/docker.go:334-352: the log reader reads header and payload with one Read each and returns the whole payload buffer even if it was not filled: a short read (normal for a network connection) inserts zero bytes and loses the frame boundaries; a payload longer than the caller's buffer is cut. With io.ReadAll (tcontainer.go:297) the buffer is 512 bytes at first, so the error message of a failed task loses text (C75).
runtime/shell/shell.go:159-164: file names of a task are joined to the directory without check: "../x" is written outside of it with the worker's rights and is not removed (C76_escape_refuted); files in subdirectories always fail (nothing creates them, C76_subdirectory_fails).
runtime/shell/shell.go:140, setid_unix.go: the directory is made with mode 0700 for the worker's user and never handed over, so a task with a configured uid other than the worker's or root always fails (C76_other_user_never_runs); SetUID is called before SetGID, so a group other than the worker's fails too (C76_group_after_user).
runtime/shell/shell.go:248-251: a cancelled or timed-out task kills the re-executed worker only; its child, the script, has no parent-death signal and runs on while its directory is removed (C76_cancel_refuted).
runtime/shell/shell.go:296-298: the worker's PATH and HOME are appended after the task's variables: the task's own PATH and HOME have no effect (C76_own_path_refuted). Workdir, GPUs, ports and probe of a task are ignored without an error.
runtime/podman/podman.go:268-275: file names are joined to the directory on the worker's machine with path.Join and no check: "../../../x" writes any file the worker may write, and it is not removed (C77_escape_refuted).
runtime/podman/podman.go:281-285: the image is put on the command line of podman without "--": an image named "-l" (for which `podman inspect` answers) turns the following words of the entrypoint into options, e.g. --privileged and -v /:/host, on a node that permits neither (C77_option_image_refuted).
runtime/podman/podman.go:234: the host network is guarded only under the name "host"; "ns:/proc/1/ns/net" reaches it too (C77_host_namespace_refuted).
runtime/podman/podman.go: limits (cpu, memory), GPUs and registry credentials of a task are silently ignored (C77_limits_ignored); a command is joined with spaces into a script (C77_words_refuted); with an own workdir the files are not there (C77_own_workdir_refuted); the handles of os.Create (lines 176, 184) are never closed.
runtime/docker/reference.go:61 with docker.go:395-420: the domain of a reference is whatever precedes the first slash even if it has no dot or port, so credentials configured for a registry called "registry" are sent to Docker Hub when pulling "registry/app" (C78_short_name_refuted).
runtime/docker/docker.go:395-420: a login for Docker Hub in config.json (key https://index.docker.io/v1/) is never used: references to Docker Hub have the domain "" or the user name (C78_hub_login_refuted); an identity token is sent as the password of an empty user instead of as an identity token (C78_token_refuted).
conf/conf.go:55-57: every underscore of a variable becomes a dot, so datastore.postgres.max_open_conns, max_idle_conns, conn_max_lifetime, conn_max_idle_time and their locker.postgres counterparts cannot be set from the environment, contrary to the README (C79_unreachable, C79_underscore_refuted).
conf/conf.go:19: "~/tork/config.toml" is opened literally (no expansion of ~), so the documented configuration in the home directory is never read (C79_home_refuted).
conf/conf.go:77-88: an empty list in the file (sources = []) falls through to the text form and is read as the list ["[]"] (C79_empty_list_refuted; koanf's String is modelled as fmt's %v for non-texts).
runtime/docker/tcontainer.go:443-448 (and shell.go:221-226, podman.go:403-408): the value is remembered before it is published, so a publication that fails is not repeated while the value stands (C80_refused_refuted); a file holding NaN is published at every reading and stored (C80_nan_refuted). Pre and post tasks report under identifiers the store does not know.
runtime/docker/tcontainer.go:360: the probe's path is appended to "http://localhost:PORT" without a check that it begins with "/": a path such as "@169.254.169.254/latest/meta-data" makes the worker send its requests to any host (C81_elsewhere_refuted); the client also follows redirects of the container.
internal/coordinator/handlers/error.go:71-73: a retry evaluates the already evaluated task again; if that fails (a value that looks like an expression is enough) neither a retry is created nor does the job fail: the task is FAILED, the job stays RUNNING for ever (C27_retry_hangs_refuted).
* postgres.go:746 (UpdateJob), 1551 (UpdateScheduledJob): `ds.GetUser` is called on the receiver, not on the transaction, and completed.go:84, 89 use `h.ds` inside the transaction: each takes a second pool connection while keeping the first. With datastore.postgres.max_open_conns = 1 no job ever leaves PENDING; with n connections n concurrent such calls (for instance pausing 25 schedules at once, at the default) block the whole coordinator for ever, invisibly to PostgreSQL's deadlock detector (C82_single_connection_refuted, C82_pool_exhausted_refuted).
* broker/rabbitmq.go:201-214, 454-458: DeleteQueue leaves the queue in b.queues, so after DELETE /queues/default (or pending) the consumers of every process that had subscribed to it fail to come back in all 20 attempts and are gone until the process is restarted (C83_deleted_queue_refuted). An exclusive queue (a worker's cancellations) whose channel was closed by the server lives on one of three connections, and attempts that miss it each time give up (C83_others_in_between_refuted). If dialling fails, nextConn does not advance, so one closed slot makes every use fail although the others are open (C83_one_closed_slot_refuted). A publication during Shutdown re-dials a connection that is never closed (C83_shutdown_leaks_refuted); so do the first connections when a later dial of NewRabbitMQBroker fails.
* **A composite task inside a sub-job can be run by a worker** (C84_composite_run_by_worker_refuted): sub-job tasks are not validated, so a parallel or each task there may name a queue; if RabbitMQ redelivers its pending message, handlers/redelivered.go:43-44 publishes it to that queue, a worker runs it as an ordinary task, and its report completes it while its children are still PENDING. At the top level validation refuses a queue on a composite task; the redelivered message then goes to the queue "".
* The log shipper cuts the output at any byte. A character cut in two by a tick makes both parts invalid UTF-8: with the in-memory broker the insert fails and both parts are lost, through RabbitMQ U+FFFD is read instead (C86_cut_character_refuted). One NUL byte loses its whole part. A part delivered twice is read twice, and the parts of a second run of a task are mixed with those of the first (C86_second_delivery_refuted, C86_second_run_refuted).
* The API shows secrets although redaction is on: POST /jobs with `wait` answers with the job of the event as it is, secrets and context included; GET /scheduled-jobs/{id} answers with the decrypted secrets; GET /jobs, POST /jobs, GET and POST /scheduled-jobs answer with inputs that were not redacted (C87_*_refuted).
* Searching a log for a word that begins with 'tag:' or 'tags:' finds everything: parseQuery's tags are dropped there (C88_log_search_drops_tags_refuted). Several tags in a job search are alternatives, not all required; 'tag:' alone asks for the empty tag.
* With Docker and with the shell the run returns, and closes the reader, without waiting for the goroutine that copies the output to the log: the tail, or all, of a successful task's log can be lost (C89_tail_is_lost_refuted). Podman waits.
* A task file whose name ends in '/' and that is not empty makes the task fail with Docker ('archive/tar: write too long', C90_slash_name_refuted); an empty one becomes a directory. The archive's writer is never closed; the library's reader takes the end of input for the end of the archive (C90_unpack).
* Priorities mean nothing with queues of the quorum type (no x-max-priority there; C91_quorum_ignores_priority_refuted) nor with the in-memory broker; an explicit priority 0 cannot override the job's default (C91_priority_of_a_task); a task of low priority may wait for ever (C91_starvation_refuted).
* A volume the engine fails to remove is never removed later (the mount's mapping is gone), and Podman's mounter leaves the directory behind when chmod fails (C92_leak_refuted). Podman's volumes are directories of mode 0777 under the host's directory for temporary files: any local user, and any task allowed to bind it, can read them.
* The start report a worker publishes is the task as prepared for the container, with the host variables' values in it (C93_started_carries_the_values): whoever can read the 'started' queue reads them. If RabbitMQ redelivers such a report (its coordinator died), the task is published for execution again with the values in it, and a retry of it is stored with them in the database and shown by the API (C93_stored_refuted). The same redelivery makes a task that is running be executed a second time.
* With nothing configured the store is Postgres (shared) but locks are in memory (per process): two coordinators on one store each get the lock on the same scheduled job (C94_default_locks_not_shared_refuted; with C51, each starts it).
* A datastore registered by the embedding program and named in datastore.type makes the engine refuse to start unless locker.type is set too (C94_provider_needs_locker_refuted).
* If the coordinator part of a standalone engine fails to start, Start returns an error but the worker part keeps running and consuming (C94_failed_start_leaves_worker_refuted).
* The rate limiter is placed after the authentication, so it does not slow down guessing of passwords (C94_guessing_not_limited_refuted); the request logger comes last, so refused requests are not logged.
* mounts.bind.sources = [] with mounts.bind.allowed = true refuses every source (C94_empty_sources_refuted); a worker whose configured queues are all coordinator queues consumes nothing (C94_idle_worker_refuted); registering a mounter under a built-in type panics when the engine starts (C94_builtin_mounter_refuted).
* Stopping a worker (in-memory broker): after Shutdown has returned a subscription on a worker queue may still take a task and start it (C95_worker_starts_task_refuted); in an engine that runs both parts the worker's Stop ends the coordinator's subscriptions first, so what the running tasks report is accepted and never handled, and after a thousand messages the sender waits for ever (C95_reports_after_stop_refuted).
* After Shutdown of the in-memory broker, publishing an event to a topic that existed waits for ever instead of failing (C95_events_block_refuted). Shutdown returns no error when its deadline passes with handlers still running, and a second call returns at once (C95_deadline_refuted).
* Metrics: the figures are of four different instants (running tasks without a running job, C96_snapshot_refuted); "online" counts nodes shown OFFLINE or DOWN; the comparison with current_timestamp is done in the session's time zone, so outside UTC nodes are online for hours after their last heartbeat, or never (C96_time_zone_refuted).
* Queue figures: RabbitMQ's list covers all virtual hosts and a name may be another application's; the HTTP status is not looked at, so a failure with the body null reads as "no queues"; RabbitMQ's size includes what is being handled and the in-memory broker's does not; an ended subscription is counted for ever; 0 and 0 does not mean idle (C96_*_refuted).
* A single heartbeat that cannot be published makes a running node show OFFLINE (C97_one_lost_refuted). Stopping a worker waits for as long as its health check or publication takes, and a second Stop waits for ever (C97_stop_waits_refuted). The deferred cancel calls of the heartbeat loop pile up for as long as the worker runs (C97_defers_pile_up_refuted).
* Podman: the set of known images is never emptied, so once an image has been removed from the host every task that needs it fails when its container is created, without a pull, until the worker is restarted (C98_removed_refuted); podman inspect also finds containers of that name (C98_container_name_refuted); pulls are one at a time and a cancelled task waits for the pulls of others (C98_waits_for_others_refuted).
* A scheduled job's name is limited to 64 bytes by its table only: names that validation and the jobs table allow are refused with a database error (C99_long_name_refuted). A secret with a zero character is accepted in a scheduled job, where it is encrypted, and then every instance is refused, because the instance carries it in its context (C99_secret_zero_refuted); the failed instance is published all the same (C51).
* A sub-job's id may be sent (input/task.go:39) and is silently ignored: the sub-job gets another id (C100_subjob_id_refuted).
* Validation accepts a permission that names a role (or user) by its id, because GetRole and GetUser match ids too, but storing looks for the slug (or user name) only and writes '', which breaks the foreign key: POST /jobs ends in a database error instead of 400 (C101_permission_by_id_refuted). A role may be given the id of another role for a slug, and is then not found by it (C101_slug_refuted).
* A scheduled job's defaults (retries, limits, timeout, queue, priority) are stored and shown but never copied to the jobs made at a tick, so they have no effect (C102_defaults_refuted).
* A job made from a schedule has no `job` in its context: `{{ job.id }}` and `{{ job.name }}`, which work in a job submitted with POST /jobs, cannot be evaluated in the same document run on a schedule (C102_same_as_submitted, last conjunct).
* A template that cannot be evaluated in the second or a later task, or on restart, leaves a FAILED task that is scheduled all the same (C27).
* A sub-job whose output cannot be evaluated reports its parent FAILED to the *completed* queue, where it is an "invalid completion state".
* `failJob` does not store the job's error; for a sub-job it returns before cancelling the remaining tasks.
* A refused completion on a FAILED root job publishes job.failed again. A duplicated error message starts an extra retry. A double restart fails the job. A cancellation racing with a queued pending message resurrects the task.
* An empty sub-job task list panics in startJob; a failing parent lookup panics in cancelHandler (nil dereference in the message) (C57 refuted).
* Detached sub-jobs have no secrets in their context; sub-jobs have no defaults. Children picked by GetNextTask lose their probe. Retried tasks keep the previous result.
* Clone omits Redelivered, DeleteAt, Password and the user of a permission that also has a role; it panics on nil elements.

Store and API:
* Secrets are stored in plain text in the `context` column (and sub-job secrets inside `tasks`); `WithTx` drops the encryption key; a plaintext secret starting with "enc:" becomes unreadable; GET of a scheduled job returns secrets unredacted.
* Redaction: uncovered fields, failing open for tasks, secrets split over log parts, empty secrets.
* Permissions are checked in listings only. A failed announcement leaves a refused submission's job PENDING for ever. Ties in created_at and overflow of page*size break paging.
* Deleting a scheduled job deletes its instances in whatever state. Cleanup compares delete_at in the session time zone. A heartbeat race at first contact loses one; a skewed clock writes OFFLINE.
* `WithTx` neither recovers nor rolls back on panic; an inner WithTx failure that is swallowed is not undone.
* createJob with `wait` panics on a second terminal event (close of a closed channel). UpdateJob/UpdateScheduledJob read users through the outer connection (deadlock with a pool of one).

Scheduled jobs: a duplicated ACTIVE event leaks a cron entry that pausing does not stop; an unpublished pause keeps firing; defaults are not copied; the job message is published even if CreateJob failed; an unparsable active schedule prevents coordinator start.

In-memory broker: first-use race can lose a message or orphan a subscriber; DeleteQueue cuts off subscribers; a handler publishing to its own topic deadlocks; PublishEvent after shutdown blocks.

Worker and runtimes: a cancellation that arrives before the task is registered is ignored; a duplicate delivery makes an execution uncancellable; middleware that swallows the call leaves no outcome; LogShipper drops the bytes of failed publishes; the shell runtime does not sanitise file names and does not check pre/post tasks for unsupported settings; docker createTaskContainer leaks the volume/container on failures; MultiMounter leaks a mapping if Mount fails; the bind allow-list is case-insensitive; host-variable aliases may collide and sidecars get none.

Web access: with basic and key authentication both on, one Authorization header cannot satisfy both; a disabled user is let in; `disabled` is not stored by createUser; a user name with a colon can never log in; a password is trimmed at creation but not at login; key authentication exempts /health, basic authentication does not.

Other: a malformed webhook URL panics; there is a useless sleep after the last attempt; engine Terminate after a signal shutdown deadlocks; the in-memory locker's double release breaks exclusion; cache SetExpiration/Modify revive expired entries.
