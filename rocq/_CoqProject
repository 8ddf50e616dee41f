-Q theories Verif
theories/GoBase.v
theories/Spec.v
theories/GoFacts.v
theories/GoMem.v
theories/Params.v
theories/F64.v
theories/F64Facts.v
theories/Utils.v
theories/UtilsFacts.v
theories/Key.v
theories/Tlwe.v
theories/TlweMem.v
theories/BitUtils.v
theories/Poly.v
theories/Fft.v
theories/Trlwe.v
theories/Trgsw.v
theories/Lut.v
theories/Evaluator.v
theories/CloudKey.v
theories/Gates.v
theories/ProxyReenc.v
theories/RunSpec.v
theories/Circuit.v
theories/TlweFacts.v
theories/BitUtilsFacts.v
theories/F64Err.v
theories/MsgFacts.v
theories/BasicFacts.v
theories/MsgMargin.v
theories/MemFacts.v
theories/PolyFacts.v
theories/NegFacts.v
theories/Laws.v
theories/FftFacts.v
theories/FftOps.v
theories/ExactPoly.v
theories/TrlweFacts.v
theories/KeySwitchFacts.v
theories/TrgswFacts.v
theories/RotFacts.v
theories/EvalFacts.v
theories/OldRotFacts.v
theories/LinFacts.v
theories/SchedFacts.v
theories/FftTab.v
theories/CSum.v
theories/FftReal.v
theories/RSum.v
theories/CErr.v
theories/BfErr.v
theories/FftErr.v
theories/FftInv.v
theories/FftRound.v
theories/FftTabErr.v
theories/FftF64.v
theories/FftProps.v
theories/HeapFacts.v
theories/CloudKeyFacts.v
theories/CallFacts.v
theories/BootFacts.v
theories/GateFacts.v
theories/NoiseFacts.v
theories/RunProps.v
theories/RlweProps.v
theories/HistProps.v
theories/KeyProps.v
theories/RunWorst.v
theories/RunStart.v
theories/NoiseCheck.v
theories/LweProps.v
theories/Tiny.v
theories/TinyRun.v
theories/PropBasic.v
theories/PropLwe.v
theories/PropFft.v
theories/PropGates.v
theories/PropRlwe.v
theories/PropHist.v
theories/ReencSpec.v
theories/ReencFacts.v
theories/ReencProps.v
theories/PropReenc.v
theories/LutFacts.v
theories/LutSpec.v
theories/LutProps.v
theories/NibbleAdd.v
theories/NibbleProps.v
theories/PropLut.v
theories/BatchSpec.v
theories/BatchFacts.v
theories/BatchProps.v
theories/PropBatch.v
theories/LevelSpec.v
theories/LenFacts.v
theories/LevelProps.v
theories/PropLevel.v
theories/Conc.v
theories/ConcSpec.v
theories/ConcFacts.v
theories/ConcRel.v
theories/ConcOps.v
theories/ConcProps.v
theories/ConcRace.v
theories/PropConc.v
theories/ConcLut.v
theories/ConcLutSpec.v
theories/Attack.v
theories/Neg2Facts.v
theories/AttackFacts.v
theories/SecretProps.v
theories/Seed.v
theories/SeedFacts.v
theories/PropSecret.v
theories/FourierApi.v
theories/FourierSpec.v
theories/FourierFacts.v
theories/FourierRel.v
theories/FourierReal.v
theories/FourierF64.v
theories/FourierSlices.v
theories/PropFourier.v
theories/MaskCount.v
theories/MaskTail.v
theories/LutProg.v
theories/LutProgProps.v
theories/PropLutProg.v
theories/MaskSpec.v
theories/MaskProps.v
theories/PropMask.v
theories/Party.v
theories/PartyProps.v
theories/PropParty.v
theories/Spy.v
theories/SpyProps.v
theories/Buffers.v
theories/PoolSpec.v
theories/Info.v
theories/SmallSpec.v
theories/PoolProps.v
theories/PropPool.v
theories/Examples.v
theories/ExampleSpec.v
theories/ExampleProps.v
theories/PropExamples.v
theories/CoinSpec.v
theories/CoinProps.v
theories/PropCoin.v
theories/BootCoinSpec.v
theories/BootCoinFacts.v
theories/BootCoinProps.v
theories/PropBootCoin.v
theories/StaleProps.v
theories/PropStale.v
theories/ConcLutFacts.v
theories/ConcLutProps.v
theories/ConcLutStart.v
theories/ConcLutRace.v
theories/PropConcLut.v
theories/EncoderProps.v
theories/EncoderBoot.v
theories/PropEncoder.v
theories/MixProg.v
theories/MixProps.v
theories/PropMix.v
theories/ConcMixSpec.v
theories/ConcMixProps.v
theories/ConcMixStart.v
theories/ConcMixRace.v
theories/PropConcMix.v
theories/NoKsProps.v
theories/PropExtract.v
theories/MixParty.v
theories/MixPartyProps.v
theories/PropMixParty.v
theories/TrlweFft.v
theories/TrlweFftProps.v
theories/PropTrlweFft.v
theories/ModProg.v
theories/ModProgProps.v
theories/PropModProg.v
theories/SmallProps.v
theories/PropSmall.v
theories/HostileSpec.v
theories/HostileFacts.v
theories/HostileRun.v
theories/HostileProps.v
theories/PropHostile.v
theories/ConcHostSpec.v
theories/ConcHostProps.v
theories/ConcHostStart.v
theories/PropConcHost.v
theories/WrongLenSpec.v
theories/WrongLen.v
theories/WrongKey.v
theories/PropWrongLen.v
theories/CoinMany.v
theories/PropCoinMany.v
theories/Flight.v
theories/FlightSpec.v
theories/FlightFacts.v
theories/FlightProps.v
theories/PropFlight.v
theories/FlightOtherSpec.v
theories/FlightOtherFacts.v
theories/FlightOtherProps.v
theories/PropFlightOther.v
theories/FlightLiveSpec.v
theories/FlightLiveFacts.v
theories/PropFlightLive.v
