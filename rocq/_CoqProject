-Q theories Verif
theories/Base.v
theories/LinkedList.v
theories/Queue.v
theories/BasicHashtable.v
theories/LinkedListProofs.v
theories/AQueue.v
theories/QueueProofs.v
theories/ATable.v
theories/BasicHashtableProofs.v
theories/Containers.v
theories/ContainersProofs.v
theories/PropertiesContainers.v
theories/Mapped.v
theories/Cache.v
theories/Throwing.v
theories/CachePtr.v
theories/Histories.v
theories/Asio.v
theories/CacheAbs.v
theories/CompSim.v
theories/CacheSim.v
theories/AbsInv.v
theories/AbsPrim.v
theories/AbsPrim2.v
theories/AbsSweep.v
theories/AbsOps.v
theories/AbsComp.v
theories/Trace.v
theories/AbsTrace.v
theories/TraceInv.v
theories/Delay.v
theories/AbsTraceCb.v
theories/AbsResolve.v
theories/AbsStep.v
theories/AbsLook.v
theories/Effects.v
theories/Observe.v
theories/Transfer.v
theories/Lookups.v
theories/Answers.v
theories/PropertiesRefuted.v
theories/PropertiesCache.v
theories/Examples.v
theories/Waiters.v
theories/Calls.v
theories/Cancel.v
theories/Origins.v
theories/Rounds.v
theories/Idle.v
theories/Refresh.v
theories/Gap.v
theories/Entries.v
theories/WeakPtr.v
theories/Avail.v
theories/Hooks.v
theories/Bound.v
theories/Evict.v
theories/Lru.v
theories/Inserted.v
theories/Worker.v
theories/Teardown.v
theories/Owners.v
theories/OwnersProofs.v
theories/Stable.v
theories/ThrowingProofs.v
theories/WorkerProofs.v
theories/PropertiesLookup.v
theories/PropertiesAnswers.v
theories/PropertiesAge.v
theories/PropertiesRefresh.v
theories/PropertiesRounds.v
theories/PropertiesEntries.v
theories/PropertiesEvict.v
theories/PropertiesWeak.v
theories/PropertiesWorker.v
theories/AsioSpec.v
theories/AsioSafe.v
theories/AsioProofs.v
theories/HooksProofs.v
theories/PropertiesAsio.v
theories/AsioResolver.v
theories/AsioResolverProofs.v
theories/Vain.v
theories/PropertiesAsioResolver.v
theories/PropertiesHooks.v
theories/PropertiesTeardown.v
theories/Concurrency.v
theories/Linear.v
theories/Frame.v
theories/ConcurrencyProofs.v
theories/PropertiesConcurrent.v
theories/Refcount.v
theories/RefcountProofs.v
theories/Meta.v
theories/MetaSpec.v
theories/MetaProofs.v
theories/PropertiesMisc.v
theories/LoadFactor.v
theories/LoadFactorProofs.v
theories/PropertiesLoad.v
theories/PropertiesThrowing.v
