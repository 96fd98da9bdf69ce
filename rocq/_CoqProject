-Q theories Verif
theories/Word.v
theories/Prog.v
theories/HashMap.v
theories/Bits.v
theories/Abs.v
theories/Probe.v
theories/SeqInv.v
theories/SeqCopy.v
theories/SeqHelp.v
theories/SeqPut.v
theories/SeqGet.v
theories/Spec.v
theories/Fuel.v
theories/SeqApi.v
theories/SeqThm.v
theories/Conc.v
theories/ConcSpec.v
theories/ConcInv.v
theories/ConcCmd.v
theories/ConcProg.v
theories/ConcMap.v
theories/ConcThm.v
theories/Stuck.v
theories/Examples.v
theories/SeqWitness.v
theories/ConcWitness.v
theories/Codec.v
theories/CodecSpec.v
theories/CodecThm.v
theories/CodecWitness.v
theories/Container.v
theories/ContainerSpec.v
theories/ContainerThm.v
theories/ContainerWitness.v
theories/Recovery.v
theories/RecoverySpec.v
theories/RecoveryThm.v
theories/RecoveryNames.v
theories/ReopenThm.v
theories/RepairThm.v
theories/RecoveryWitness.v
theories/DurableSpec.v
theories/Durable.v
theories/DurableMap.v
theories/DurableThm.v
theories/OneWrite.v
theories/CrashReopen.v
theories/CrashReadSpec.v
theories/CrashRead.v
theories/DurableWitness.v
theories/LinSpec.v
theories/Lin.v
theories/LinThm.v
theories/LinWitness.v
theories/PropertiesDurable.v
theories/PropertiesLin.v
theories/PropertiesSeq.v
theories/PropertiesConc.v
theories/PropertiesCodec.v
theories/PropertiesContainer.v
theories/PropertiesRecovery.v
theories/TraceSpec.v
theories/Trace.v
theories/TraceThm.v
theories/PropertiesTrace.v
theories/LinNew.v
theories/LinNewAbs.v
theories/LinCount.v
theories/LinNewThm.v
theories/LinNewWitness.v
theories/PropertiesNew.v
theories/FirstPutSpec.v
theories/FirstPut.v
theories/FirstPutThm.v
theories/FirstPutWitness.v
theories/PropertiesFirst.v
theories/LiveSpec.v
theories/Live.v
theories/LiveThm.v
theories/LiveWitness.v
theories/PropertiesLive.v
theories/MwCas.v
theories/MwSpec.v
theories/MwWp.v
theories/MwSeq.v
theories/MwThm.v
theories/MwRely.v
theories/MwRecover.v
theories/MwCalmSpec.v
theories/MwCalm.v
theories/MwWitness.v
theories/PropertiesMw.v
theories/MwDurSpec.v
theories/MwDur.v
theories/MwDurConc.v
theories/MwDurWitness.v
theories/PropertiesMwDur.v
theories/MwHelpSpec.v
theories/MwHelp.v
theories/MwSafeSpec.v
theories/MwInv.v
theories/MwHelpThm.v
theories/PropertiesMwHelp.v
theories/PropertiesMwSafe.v
theories/MwCallSpec.v
theories/MwCall.v
theories/MwStop.v
theories/MwStopRec.v
theories/MwCallThm.v
theories/MwConflict.v
theories/PropertiesMwCall.v
theories/MwAloneSpec.v
theories/MwAlone.v
theories/PropertiesMwAlone.v
theories/MwPendSpec.v
theories/MwPend.v
theories/PropertiesMwPend.v
theories/RecCheck.v
theories/RecCheckSpec.v
theories/RecCheckThm.v
theories/RecCheckRun.v
theories/RecCheckWitness.v
theories/PropertiesCheck.v
theories/CrashSpec.v
theories/CrashConc.v
theories/CrashConcWitness.v
theories/CrashGrow.v
theories/CrashGet.v
theories/PropertiesCrash.v
theories/Harness.v
theories/HarnessSpec.v
theories/HarnessText.v
theories/HarnessYcsb.v
theories/HarnessCount.v
theories/HarnessMisc.v
theories/HarnessRun.v
theories/HarnessWitness.v
theories/PropertiesHarness.v
theories/PhaseSpec.v
theories/PhaseJ.v
theories/PhaseThm.v
theories/PhaseWitness.v
theories/GrowWitness.v
theories/PropertiesPhase.v
theories/Xxhash.v
theories/XxhashThm.v
theories/PropertiesHash.v
theories/KDriver.v
theories/KDriverThm.v
theories/KDriverSafe.v
theories/KDriverWitness.v
theories/PropertiesDriver.v
theories/Wrappers.v
theories/WrappersSpec.v
theories/WrappersThm.v
theories/WrappersWitness.v
theories/OneFile.v
theories/OneFileThm.v
theories/PropertiesWrappers.v
theories/SafeSpec.v
theories/ConcSafe.v
theories/ConcSafeThm.v
theories/SafeDriver.v
theories/PropertiesSafe.v
