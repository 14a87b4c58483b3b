-Q theories Verif

theories/Base.v
theories/Text.v
theories/MagmaModel.v
theories/Streams.v
theories/KuzModel.v
theories/SpecText.v
theories/SpecMagma.v
theories/TestVectors.v
theories/SpecModes.v
theories/Lib.v
theories/MagmaProofs.v
theories/SboxProofs.v
theories/TextProofs.v
theories/MagmaSpecProofs.v
theories/BlockProofs.v
theories/CacheModel.v
theories/SpecCache.v
theories/CacheProofs.v
theories/SpecStreams.v
theories/ByteProofs.v
theories/SinkProofs.v
theories/SourceProofs.v
theories/StreamProofs.v
theories/TowerProofs.v
theories/StreamFacts.v
theories/SpecMac.v
theories/SpecKuz.v
theories/SpecIter.v
theories/MacProofs.v
theories/KuzProofs.v
theories/KuzStreamProofs.v
theories/KuzFacts.v
theories/ContainerProofs.v
theories/DeepModel.v
theories/SpecDeep.v
theories/DeepProofs.v
theories/DeepMagma.v
theories/DeepMagmaProofs.v
theories/ConcModel.v
theories/SpecConc.v
theories/ConcProofs.v
theories/PropMagma.v
theories/PropCache.v
theories/PropStreams.v
theories/PropMac.v
theories/PropKuz.v
theories/PropContainer.v
theories/PropDeep.v
theories/PropConc.v
theories/SpecMore.v
theories/SpecFail.v
theories/StreamMore.v
theories/KeyMore.v
theories/TailProofs.v
theories/OddReads.v
theories/KuzMore.v
theories/PropMore.v
theories/PropKuzMore.v
theories/NetModel.v
theories/NetProofs.v
theories/SpecGost.v
theories/NetFacts.v
theories/PropNet.v
theories/SpecNumber.v
theories/NumberProofs.v
theories/PropNumber.v
theories/WorkModel.v
theories/WorkProofs.v
theories/WorkExact.v
theories/PropWork.v
theories/LifeModel.v
theories/SpecLife.v
theories/LifeProofs.v
theories/PropLife.v
theories/LeakModel.v
theories/SpecLeak.v
theories/LeakProofs.v
theories/PropLeak.v
theories/HarnessModel.v
theories/SpecHarness.v
theories/HarnessProofs.v
theories/PropHarness.v
theories/SepProofs.v
theories/PropSep.v
theories/RetryProofs.v
theories/PropRetry.v
theories/SpecWeak.v
theories/WeakProofs.v
theories/PropWeak.v
theories/PortModel.v
theories/SpecPort.v
theories/PortProofs.v
theories/PortMore.v
theories/PortKuz.v
theories/PropPort.v
theories/CrashProofs.v
theories/PropCrash.v
theories/EffModel.v
theories/SpecEff.v
theories/EffProofs.v
theories/PropEff.v
theories/AliasModel.v
theories/AliasProofs.v
theories/PropAlias.v
theories/CollProofs.v
theories/ReflProofs.v
theories/PropColl.v
theories/MemModel.v
theories/MemProofs.v
theories/PropMem.v
theories/SuiteModel.v
theories/SpecSuite.v
theories/SuiteProofs.v
theories/PropSuite.v
theories/ReentModel.v
theories/SpecReent.v
theories/ReentProofs.v
theories/PropReent.v
theories/KuzMemModel.v
theories/KuzMemProofs.v
theories/PropKuzMem.v
theories/KuzAlgProofs.v
theories/PropKuzAlg.v
theories/LocaleModel.v
theories/SpecLocale.v
theories/LocaleProofs.v
theories/PropLocale.v
theories/MacMemModel.v
theories/MacMemProofs.v
theories/PropMacMem.v
theories/SpecInter.v
theories/InterProofs.v
theories/PropInter.v
theories/StreamLeakModel.v
theories/StreamLeakProofs.v
theories/PropStreamLeak.v
theories/SourceLeakModel.v
theories/SpecSourceLeak.v
theories/SourceLeakProofs.v
theories/PropSourceLeak.v
