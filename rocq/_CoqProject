-Q theories Verif
theories/Base.v
theories/Sha256.v
theories/Hkdf.v
theories/Murmur3.v
theories/Scrypt.v
theories/LibTests.v
theories/Hex.v
theories/Common.v
theories/Hasher.v
theories/Encryptor.v
theories/Oprf.v
theories/Server.v
theories/Client.v
theories/Utf8.v
theories/Mutator.v
theories/KV.v
theories/Base64.v
theories/Json.v
theories/DasRules.v
theories/ConfigJson.v
theories/Receiver.v
theories/Scanner.v
theories/Url.v
theories/Demo.v
theories/ScanCode.v
theories/SpecScan.v
theories/BaseProofs.v
theories/LibProofs.v
theories/SpecCommon.v
theories/CommonProofs.v
theories/SpecEntry.v
theories/SpecProtocol.v
theories/EncryptorProofs.v
theories/FinalizeProofs.v
theories/OprfGroup.v
theories/PropCommon.v
theories/PropEntry.v
theories/PropFinalize.v
theories/KVProofs.v
theories/ProtocolProofs.v
theories/WireProofs.v
theories/PropProtocol.v
theories/PropWire.v
theories/SpecMutator.v
theories/MutatorProofs.v
theories/PropMutator.v
theories/SpecDemo.v
theories/DemoProofs.v
theories/IngestProofs.v
theories/ScanProofs.v
theories/OrderProofs.v
theories/PropDemo.v
theories/JsonProofs.v
theories/Utf8Proofs.v
theories/JsonGrammar.v
theories/SpecJson.v
theories/SpecHttp.v
theories/UrlProofs.v
theories/HttpProofs.v
theories/PropHttp.v
theories/SpecConc.v
theories/KVConc.v
theories/ConcProofs.v
theories/ConcHistory.v
theories/ConcRun.v
theories/ConcServer.v
theories/ConcLive.v
theories/PropConc.v
theories/Flags.v
theories/Main.v
theories/SpecMain.v
theories/FlagsProofs.v
theories/MainProofs.v
theories/RouteProofs.v
theories/SpecTrust.v
theories/TrustProofs.v
theories/SentProofs.v
theories/PropMain.v
theories/PropOrder.v
theories/PropTrust.v
theories/PropSent.v
theories/PropRoute.v
theories/Mem.v
theories/MemCode.v
theories/MemStore.v
theories/SpecMem.v
theories/MemProofs.v
theories/MemStoreProofs.v
theories/PropMem.v
theories/SpecDecode.v
theories/DecodeProofs.v
theories/PropJson.v
theories/PropReceiver.v
theories/PropScan.v
theories/SpecMigrate.v
theories/MigrateProofs.v
theories/PropMigrate.v
theories/SpecRW.v
theories/RWLock.v
theories/RWProofs.v
theories/RWLive.v
theories/PropRW.v
theories/Effects.v
theories/SpecEffects.v
theories/EffectProofs.v
theories/PropEffects.v
theories/HttpEffects.v
theories/SpecResponse.v
theories/ResponseProofs.v
theories/PropResponse.v
theories/MurmurProofs.v
theories/SpecVariants.v
theories/VariantProofs.v
theories/PropVariants.v
theories/RepoTests.v
theories/SpecQuick.v
theories/QuickProofs.v
theories/PropQuick.v
theories/MemProg.v
theories/ProgProofs.v
theories/Shared.v
theories/SpecShared.v
theories/SharedProofs.v
theories/PropShared.v
theories/Ideal.v
theories/SpecIdeal.v
theories/IdealProofs.v
theories/PropIdeal.v
theories/SizeProofs.v
theories/PropSize.v
theories/SpecErrors.v
theories/PropErrors.v
theories/SpecWork.v
theories/WorkProofs.v
theories/PropWork.v
theories/SpecTrace.v
theories/TraceProofs.v
theories/PropTrace.v
theories/SpecStore.v
theories/StoreProofs.v
theories/PropStore.v
theories/SpecChance.v
theories/ChanceProofs.v
theories/PropChance.v
theories/SpecInterop.v
theories/InteropProofs.v
theories/PropInterop.v
theories/SpecStderr.v
theories/PropStderr.v
theories/PropBound.v
theories/PropParts.v
theories/PropNarrow.v
theories/Handles.v
theories/SpecHandles.v
theories/HandleProofs.v
theories/PropHandles.v
theories/InsertCalls.v
theories/SpecParallel.v
theories/ParallelProofs.v
theories/PropParallel.v
theories/StableProofs.v
theories/PropStable.v
theories/SpecServe.v
theories/ServeProofs.v
theories/PropServe.v
theories/CutProofs.v
theories/PropCut.v
theories/ReadBody.v
theories/SpecRead.v
theories/ReadProofs.v
theories/PropRead.v
theories/SpecWritten.v
theories/WrittenProofs.v
theories/PropWritten.v
theories/ReadConfig.v
theories/SpecFetch.v
theories/FetchProofs.v
theories/PropFetch.v
theories/ClientRead.v
theories/SpecClientRead.v
theories/ClientReadProofs.v
theories/PropClientRead.v
theories/SpecTame.v
theories/PropTame.v
theories/ServeConc.v
theories/SpecServeConc.v
theories/ServeConcProofs.v
theories/PropServeConc.v
theories/SpecCrowd.v
theories/PropCrowd.v
