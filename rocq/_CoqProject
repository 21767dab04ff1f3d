-Q theories Verif
theories/Types.v
theories/World.v
theories/Eval.v
theories/Clone.v
theories/Handlers.v
theories/System.v
theories/SpecState.v
theories/Logic.v
theories/EvalProofs.v
theories/InvRules.v
theories/InvProofs.v
theories/InvSched.v
theories/InvTx.v
theories/InvAll.v
theories/InvMsgs.v
theories/SpecTrace.v
theories/PlainOps.v
theories/StateProofs.v
theories/Sim.v
theories/PropsState.v
theories/SeqLogic.v
theories/SpecSeq.v
theories/SeqTools.v
theories/PropsSched.v
theories/PropsFan.v
theories/SpecComplete.v
theories/PropsComplete.v
theories/SpecFail.v
theories/PropsFail.v
theories/PropsComposite.v
theories/PropsRestart.v
theories/Wildcard.v
theories/Cache.v
theories/Locker.v
theories/LogShip.v
theories/Middleware.v
theories/Webhook.v
theories/Engine.v
theories/Worker.v
theories/Runtime.v
theories/Health.v
theories/HostEnv.v
theories/Mounts.v
theories/Validate.v
theories/Scheduled.v
theories/ApiGuards.v
theories/WebAuth.v
theories/Accounts.v
theories/Roles.v
theories/Wire.v
theories/Rows.v
theories/Rabbit.v
theories/RabbitStop.v
theories/Topics.v
theories/Listing.v
theories/Cleanup.v
theories/Heartbeat.v
theories/Tx.v
theories/Secrets.v
theories/Redact.v
theories/Template.v
theories/InMemBroker.v
theories/CloneHeap.v
theories/PropsClone.v
theories/SpecEffect.v
theories/Layer.v
theories/TxEffect.v
theories/Effects.v
theories/EffectWalk.v
theories/EffectAll.v
theories/EffectCount.v
theories/SimWhere.v
theories/PropsEffect.v
theories/PropsEffectCases.v
theories/PropsParent.v
theories/SpecLive.v
theories/Live.v
theories/PropsLive.v
theories/Wait.v
theories/Images.v
theories/AbsLive.v
theories/SpecRun.v
theories/RunEval.v
theories/RunSim.v
theories/PropsRun.v
theories/Container.v
theories/DockerLogs.v
theories/ShellRun.v
theories/Podman.v
theories/Regex.v
theories/Creds.v
theories/Conf.v
theories/Progress.v
theories/Sidecar.v
theories/RefGrammar.v
theories/PropsEvalFail.v
theories/DbPool.v
theories/RabbitConn.v
theories/PropsResult.v
theories/PropsSubResult.v
theories/LogEnd.v
theories/ApiView.v
theories/Query.v
theories/LogTail.v
theories/Archive.v
theories/Priority.v
theories/Volume.v
theories/HostLeak.v
theories/Wiring.v
theories/MemStop.v
theories/Metrics.v
theories/Alive.v
theories/PodmanPull.v
theories/SchedRows.v
theories/Submitted.v
theories/UserRoles.v
theories/SchedDoc.v
