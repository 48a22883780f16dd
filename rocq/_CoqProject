-Q theories Verif
theories/Base.v
theories/AlgModel.v
theories/EncCtxModel.v
theories/HdrModel.v
theories/FrameModel.v
theories/CryptoModel.v
theories/SessionModel.v
theories/KeyringModel.v
theories/CacheModel.v
theories/CachingModel.v
theories/BaseProofs.v
theories/WireSpec.v
theories/SessionSpec.v
theories/StreamSpec.v
theories/KeyringSpec.v
theories/CacheSpec.v
theories/CachingSpec.v
theories/EncCtxProofs.v
theories/HdrProofs.v
theories/FrameProofs.v
theories/SessionBase.v
theories/SessionInv.v
theories/SessionStep.v
theories/SessionStepD.v
theories/SessionRun.v
theories/SessionTheorems.v
theories/SessionExamples.v
theories/StreamExamples.v
theories/SessionStream.v
theories/SessionForward.v
theories/CodecTheorems.v
theories/SessionRoundTrip.v
theories/KeyringProofs.v
theories/RawKeyringProofs.v
theories/KeyringExamples.v
theories/CacheProofs.v
theories/CacheTheorems.v
theories/CachingProofs.v
theories/CachingUsage.v
theories/CachingOrigin.v
theories/CachingTheorems.v
theories/CachingHash.v
theories/CachingAnswers.v
theories/CacheExamples.v
theories/KmsModel.v
theories/KmsSpec.v
theories/ArnProofs.v
theories/KmsProofs.v
theories/MrkProofs.v
theories/KmsExamples.v
theories/SigModel.v
theories/SigSpec.v
theories/SigProofs.v
theories/SigExamples.v
theories/RefModel.v
theories/RefSpec.v
theories/RefProofs.v
theories/RefExamples.v
theories/ProgressSpec.v
theories/SessionProgress.v
theories/SessionFollow.v
theories/ProgressExamples.v
theories/ReportSpec.v
theories/SessionReport.v
theories/ReportExamples.v
theories/SuiteSpec.v
theories/SuiteProofs.v
theories/LiveSpec.v
theories/SessionLive.v
theories/LiveExamples.v
theories/Prop_Codec.v
theories/Prop_Session.v
theories/Prop_Stream.v
theories/Prop_Keyring.v
theories/Prop_Cache.v
theories/Prop_Kms.v
theories/Prop_Sig.v
theories/Prop_Ref.v
theories/Prop_Progress.v
theories/Prop_Report.v
theories/Prop_Live.v
theories/HkdfModel.v
theories/HkdfSpec.v
theories/HkdfProofs.v
theories/HkdfExamples.v
theories/Prop_Hkdf.v
theories/BuildModel.v
theories/ClientModel.v
theories/ClientSpec.v
theories/ClientProofs.v
theories/ClientTheorems.v
theories/ClientBuild.v
theories/Prop_Client.v
theories/BuildSpec.v
theories/BuildProofs.v
theories/Prop_Build.v
theories/StackSpec.v
theories/StackProofs.v
theories/StackTheorems.v
theories/StackKeyrings.v
theories/StackExamples.v
theories/Prop_Stack.v
theories/CacheHitSpec.v
theories/CacheHit.v
theories/CacheConf.v
theories/CacheHitExamples.v
theories/Prop_Hit.v
theories/MemModel.v
theories/MemLogic.v
theories/MemSpec.v
theories/MemProofs.v
theories/MemTop.v
theories/MemExamples.v
theories/Prop_Mem.v
theories/CacheStackSpec.v
theories/CacheStackProofs.v
theories/CacheStackExamples.v
theories/Prop_CacheStack.v
theories/TreeSpec.v
theories/TreeProofs.v
theories/TreeExamples.v
theories/Prop_Tree.v
theories/TraceSpec.v
theories/TraceProofs.v
theories/Prop_Trace.v
theories/LocalMemModel.v
theories/LocalMemLogic.v
theories/LocalMemProofs.v
theories/LocalMemSpec.v
theories/LocalMemTop.v
theories/Prop_LocalMem.v
theories/CipherModel.v
theories/CipherSpec.v
theories/CipherProofs.v
theories/CipherTop.v
theories/CipherLong.v
theories/Prop_Cipher.v
theories/AsymModel.v
theories/AsymSpec.v
theories/AsymProofs.v
theories/AsymLong.v
theories/AsymTop.v
theories/AsymExamples.v
theories/Prop_Asym.v
theories/RealCrypto.v
theories/RealProofs.v
theories/VectorData.v
theories/VectorProofs.v
theories/Prop_Vectors.v
theories/LocalModel.v
theories/LocalSpec.v
theories/LocalProofs.v
theories/Prop_Local.v
theories/UnitData.v
theories/UnitProofs.v
theories/Prop_Unit.v
theories/KnownData.v
theories/KnownProofs.v
theories/Prop_Known.v
