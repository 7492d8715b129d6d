-Q theories Verif
theories/Prelude.v
theories/Clmul.v
theories/FieldModel.v
theories/FieldProofs.v
theories/FieldInv.v
theories/Gf8.v
theories/PolyModel.v
theories/PolyProofs.v
theories/FieldSig.v
theories/Points.v
theories/Instances.v
theories/FreeSpec.v
theories/FieldSpec.v
theories/FieldApi.v
theories/FieldExtra.v
theories/PropField.v
theories/PropParams.v
theories/AesSpec.v
theories/AesModel.v
theories/AesBase.v
theories/AesKs.v
theories/AesPlain.v
theories/AesApi.v
theories/AesMpc.v
theories/AesLin.v
theories/AesHonest.v
theories/AesShares.v
theories/PropAes.v
theories/PropMpc.v
theories/HashModel.v
theories/TreeModel.v
theories/TreeSpec.v
theories/TreeProofs.v
theories/TreeExpand.v
theories/TreeApi.v
theories/TreeRev.v
theories/PropTree.v
theories/ContainerModel.v
theories/BanquetModel.v
theories/ListSum.v
theories/FieldLin.v
theories/BanquetHash.v
theories/BanquetPure.v
theories/BanquetVerify.v
theories/BanquetSign.v
theories/BanquetPoly.v
theories/BanquetCtx.v
theories/BanquetRun.v
theories/Serialize.v
theories/BanquetApi.v
theories/History.v
theories/SignFacts.v
theories/PropSign.v
theories/SerialFacts.v
theories/WireSpec.v
theories/WireFacts.v
theories/PropWire.v
theories/PropSerial.v
theories/ChallengeFacts.v
theories/TapeFacts.v
theories/HashFacts.v
theories/PropHash.v
theories/KeygenFacts.v
theories/KeygenBad.v
theories/PropKeygen.v
theories/ShareFacts.v
theories/PropShares.v
theories/SigSpec.v
theories/AnySpec.v
theories/VerifyTree.v
theories/VerifyFacts.v
theories/VerifyOutcome.v
theories/AcceptFacts.v
theories/AlterFacts.v
theories/VerifyCases.v
theories/PropVerify.v
theories/SpongeModel.v
theories/SpongeSpec.v
theories/SpongeFacts.v
theories/SpongeApi.v
theories/Sponge4Facts.v
theories/SpongeCases.v
theories/PropSponge.v
theories/MaskSpec.v
theories/MaskFacts.v
theories/PropMask.v
theories/DomainSpec.v
theories/DomainFacts.v
theories/PropDomain.v
theories/KeccakSpec.v
theories/KeccakModel.v
theories/KeccakFacts.v
theories/KeccakBytes.v
theories/KeccakShake.v
theories/KeccakHash.v
theories/PropKeccak.v
theories/SnpSponge.v
theories/SnpSim.v
theories/SnpSim4.v
theories/SnpMem.v
theories/SnpLayout.v
theories/Opt64Model.v
theories/Opt64Facts.v
theories/SnpShake.v
theories/PropSnp.v
theories/X86Model.v
theories/Avx2Code.v
theories/Avx2Round.v
theories/Avx2Perm.v
theories/Avx2Mem.v
theories/Avx2Facts.v
theories/Avx2Calls.v
theories/Avx2Add.v
theories/Avx2Extract.v
theories/Avx2Block.v
theories/Avx2Fast.v
theories/Avx2Model.v
theories/Avx2Sim.v
theories/PropAvx2.v
theories/Simd256Model.v
theories/Simd256Round.v
theories/Simd256Facts.v
theories/PropSimd256.v
theories/BuildSpec.v
theories/BuildFacts.v
theories/PropBuilds.v
theories/Forge.v
theories/ForgeAes.v
theories/ForgeRun.v
theories/ForgeApi.v
theories/PropForge.v
theories/ExtractSpec.v
theories/ExtractPoly.v
theories/ExtractFacts.v
theories/ExtractApi.v
theories/PropExtract.v
theories/ThreadModel.v
theories/ThreadFacts.v
theories/ThreadApi.v
theories/PropThreads.v
theories/RandModel.v
theories/RandSpec.v
theories/RandFacts.v
theories/PropRandom.v
theories/FreeApi.v
theories/FreeVerify.v
theories/FreeSafe.v
theories/FillerSpec.v
theories/FillerFacts.v
theories/FillerApi.v
theories/PropFree.v
theories/FreshFacts.v
theories/PropFresh.v
theories/LeakModel.v
theories/LeakSpec.v
theories/LeakFacts.v
theories/LeakAes.v
theories/LeakApi.v
theories/PropLeak.v
theories/ZeroKey.v
theories/WrongKey.v
theories/PropWrong.v
theories/Unbias.v
theories/UnbiasApi.v
theories/PropUnbias.v
theories/UnbiasKey.v
theories/PropUnbiasKey.v
theories/DebugModel.v
theories/DebugFacts.v
theories/PropDebug.v
theories/ToolModel.v
theories/ToolSpec.v
theories/ToolFacts.v
theories/PropTools.v
theories/ThreadRead.v
theories/CutModel.v
theories/CutFacts.v
theories/PropCut.v
theories/BitHashSpec.v
theories/BitHashModel.v
theories/BitHashFacts.v
theories/BitHashApi.v
theories/BitHashRuns.v
theories/BitHashFips.v
theories/PropBits.v
theories/HonestSpec.v
theories/HonestFacts.v
theories/PropHonest.v
theories/LooseSpec.v
theories/LooseFacts.v
theories/PropLoose.v
theories/CrossFacts.v
theories/CrossCases.v
theories/PropCross.v
theories/DetermFacts.v
theories/PropDeterm.v
theories/MemModel.v
theories/MemAes.v
theories/MemBase.v
theories/MemRows.v
theories/MemSetup.v
theories/MemPhase1.v
theories/MemPhase5.v
theories/MemBody.v
theories/MemLoose.v
theories/MemSpill.v
theories/PropMem.v
theories/LateSpec.v
theories/LateFacts.v
theories/LateApi.v
theories/PropLate.v
theories/SoundSpec.v
theories/SoundFacts.v
theories/SoundApi.v
theories/PropSound.v
theories/OnlineSpec.v
theories/OnlineFacts.v
theories/HonestOpen.v
theories/OnlineApi.v
theories/OnlineCases.v
theories/PropOnline.v
theories/StateSpec.v
theories/PutFacts.v
theories/Opt64More.v
theories/Opt64MoreFacts.v
theories/Avx2Over.v
theories/Avx2Zero.v
theories/Avx2XAdd.v
theories/Avx2Rounds.v
theories/Avx2Fast12.v
theories/Avx2FastAny.v
theories/StateModel.v
theories/StateFacts.v
theories/PropState.v
theories/HashImplSpec.v
theories/SnpHash.v
theories/SnpHashSim.v
theories/SnpHashFacts.v
theories/PropImpl.v
theories/SnpHash4.v
theories/SnpHash4Sim.v
theories/SnpHash4Facts.v
theories/PropImpl4.v
theories/FourSpec.v
theories/FourModel.v
theories/FourLay.v
theories/FourAll.v
theories/FourPerm.v
theories/FourOpt.v
theories/FourSimd.v
theories/PropFour.v
theories/Fast4Spec.v
theories/Fast4Model.v
theories/Fast4Facts.v
theories/Fast4Past.v
theories/PropFast4.v
theories/TraceSpec.v
theories/TraceModel.v
theories/TraceFacts.v
theories/PropTrace.v
theories/TimerModel.v
theories/PropTimer.v
theories/KravSpec.v
theories/KravModel.v
theories/KravFacts.v
theories/KravLoop.v
theories/PropKrav.v
theories/KnownAnswers.v
