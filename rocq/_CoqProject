-Q theories Verif
theories/Go/GoInt.v
theories/Spec/BucketSpec.v
theories/Go/GoConc.v
theories/Model/Counter.v
theories/Model/BucketQueue.v
theories/Model/BucketCounter.v
theories/Spec/CounterSpec.v
theories/Proofs/BucketAbs.v
theories/Proofs/BucketHist.v
theories/Proofs/BucketMain.v
theories/Proofs/BucketProps.v
theories/Model/FastCompass.v
theories/Spec/FastCompassSpec.v
theories/Proofs/FastCompassProofs.v
theories/Proofs/FastCompassProps.v
theories/Props/PCounter.v
theories/Props/PBucket.v
theories/Props/PFastCompass.v
theories/Model/CounterConc.v
theories/Spec/CounterConcSpec.v
theories/Proofs/CounterConcProofs.v
theories/Props/PCounterConc.v
theories/Model/BucketCounterConc.v
theories/Spec/BucketConcSpec.v
theories/Proofs/BucketConcProofs.v
theories/Proofs/BucketConcRing.v
theories/Proofs/BucketConcMain.v
theories/Spec/BucketReadSpec.v
theories/Proofs/BucketReadProofs.v
theories/Proofs/BucketReadMain.v
theories/Proofs/BucketReadSum.v
theories/Proofs/BucketReadDom.v
theories/Props/PBucketRead.v
theories/Props/PBucketConc.v
theories/Model/FastCompassConc.v
theories/Spec/FastCompassConcSpec.v
theories/Proofs/FastCompassConcProofs.v
theories/Props/PFastCompassConc.v
theories/Go/GoAtomic.v
theories/Model/ManualClock.v
theories/Spec/ClockSpec.v
theories/Proofs/ClockProofs.v
theories/Props/PClock.v
theories/Go/GoFloat.v
theories/Model/EWMA.v
theories/Model/EWMAConc.v
theories/Model/FloatUtil.v
theories/Spec/EWMASpec.v
theories/Spec/EWMAConcSpec.v
theories/Proofs/EWMAProofs.v
theories/Proofs/EWMAError.v
theories/Proofs/EWMAConcProofs.v
theories/Proofs/FloatProofs.v
theories/Props/PFloat.v
theories/Props/PEWMA.v
theories/Model/Config.v
theories/Spec/ConfigSpec.v
theories/Props/PConfig.v
theories/Model/MetricName.v
theories/Spec/NameSpec.v
theories/Proofs/NameProofs.v
theories/Props/PName.v
theories/Model/Registry.v
theories/Spec/RegistrySpec.v
theories/Proofs/RegistryProofs.v
theories/Model/RegistryConc.v
theories/Proofs/RegistryConcProofs.v
theories/Proofs/RegistryLimit.v
theories/Model/Nop.v
theories/Props/PRegistry.v
theories/Spec/RegistryConcSpec.v
theories/Proofs/RegistryConcMore.v
theories/Props/PRegistryConc.v
theories/Model/UniformSnapshot.v
theories/Spec/SnapshotSpec.v
theories/Proofs/UniformSnapshotProofs.v
theories/Props/PUniformSnapshot.v
theories/Model/UniformReservoir.v
theories/Spec/ReservoirSpec.v
theories/Proofs/UniformReservoirProofs.v
theories/Proofs/UniformSubset.v
theories/Props/PUniformReservoir.v
theories/Model/BucketReservoir.v
theories/Spec/BucketReservoirSpec.v
theories/Proofs/BucketReservoirProofs.v
theories/Props/PBucketReservoir.v
theories/Model/WeightedSnapshot.v
theories/Spec/WeightedSpec.v
theories/Proofs/WeightedProofs.v
theories/Proofs/FloatSum.v
theories/Proofs/WeightedMean.v
theories/Proofs/WeightedVar.v
theories/Props/PWeighted.v
theories/Model/DecayingReservoir.v
theories/Spec/DecayingSpec.v
theories/Proofs/DecayingProofs.v
theories/Proofs/DecayingCalls.v
theories/Proofs/DecayingTop.v
theories/Props/PDecaying.v
theories/Model/Compass.v
theories/Spec/CompassSpec.v
theories/Proofs/CompassProofs.v
theories/Proofs/CompassMeter.v
theories/Proofs/MeanRate.v
theories/Props/PCompass.v
theories/Model/CompassTypes.v
theories/Props/PCompassTypes.v
theories/Model/CompassConc.v
theories/Model/BucketReadConc.v
theories/Spec/CompassConcSpec.v
theories/Proofs/CompassConcProofs.v
theories/Proofs/CompassConcTables.v
theories/Proofs/CompassConcMore.v
theories/Props/PCompassConc.v
theories/Model/DecayingConc.v
theories/Spec/DecayingConcSpec.v
theories/Proofs/DecayingConcProofs.v
theories/Proofs/DecayingConcMore.v
theories/Proofs/DecayingConcTicks.v
theories/Proofs/DecayingConcSkew.v
theories/Proofs/DecayingConcMain.v
theories/Props/PDecayingConc.v
theories/Model/ReservoirConc.v
theories/Spec/ReservoirConcSpec.v
theories/Proofs/ReservoirConcProofs.v
theories/Props/PReservoirConc.v
theories/Spec/QuantileSpec.v
theories/Proofs/UniformQuantile.v
theories/Proofs/UniformVar.v
theories/Props/PQuantile.v
theories/Spec/RaceSpec.v
theories/Proofs/RaceLemmas.v
theories/Spec/EWMARaceSpec.v
theories/Props/PEWMARace.v
theories/Spec/DecayingRaceSpec.v
theories/Props/PDecayingRace.v
theories/Spec/RegistryRaceSpec.v
theories/Props/PRegistryRace.v
theories/Spec/BucketRaceSpec.v
theories/Props/PBucketRace.v
theories/Spec/FastCompassRaceSpec.v
theories/Props/PFastCompassRace.v
theories/Spec/CompassRaceSpec.v
theories/Props/PCompassRace.v
theories/Model/DecayingSizeConc.v
theories/Spec/DecayingSizeSpec.v
theories/Proofs/DecayingSizeProofs.v
theories/Props/PDecayingSize.v
theories/Model/ConfigTags.v
theories/Spec/ConfigTagsSpec.v
theories/Props/PConfigTags.v
theories/Go/GoCompose.v
theories/Proofs/ComposeProofs.v
theories/Proofs/ComposeHistory.v
theories/Model/CompassFine.v
theories/Spec/CompassFineSpec.v
theories/Proofs/CompassFineProofs.v
theories/Proofs/CompassFineParts.v
theories/Proofs/CompassFineUniform.v
theories/Proofs/CompassFineMain.v
theories/Props/PCompassFine.v
theories/Model/FastCompassFine.v
theories/Spec/FastCompassFineSpec.v
theories/Proofs/BucketRest.v
theories/Proofs/FastCompassFineProofs.v
theories/Proofs/FastCompassFineRead.v
theories/Proofs/FastCompassFineMain.v
theories/Proofs/FastCompassFineResults.v
theories/Proofs/FastCompassFineSafe.v
theories/Proofs/FastCompassFineQuiet.v
theories/Props/PFastCompassFine.v
theories/Model/SystemConc.v
theories/Spec/SystemSpec.v
theories/Proofs/RegistryKinds.v
theories/Proofs/SystemProofs.v
theories/Proofs/SystemMain.v
theories/Proofs/SystemUse.v
theories/Proofs/SystemHistory.v
theories/Proofs/SystemRead.v
theories/Proofs/SystemProgress.v
theories/Props/PSystem.v
theories/Props/PSystemRead.v
theories/Props/PReservoirTypes.v
theories/Model/CompassRead.v
theories/Spec/CompassReadSpec.v
theories/Proofs/CompassLedger.v
theories/Proofs/CompassReadProofs.v
theories/Proofs/CompassReadInv.v
theories/Proofs/CompassReadMain.v
theories/Proofs/CompassReadCalls.v
theories/Proofs/CompassReadRest.v
theories/Proofs/CompassReadProgress.v
theories/Proofs/CompassReadGives.v
theories/Proofs/CompassReadOrder.v
theories/Props/PCompassRead.v
theories/Spec/ProgressSpec.v
theories/Proofs/ProgressLemmas.v
theories/Spec/EWMAProgressSpec.v
theories/Proofs/EWMAProgress.v
theories/Props/PEWMAProgress.v
theories/Proofs/CompassBound.v
theories/Proofs/CompassReturn.v
theories/Props/PCompassReturn.v
theories/Proofs/FastCompassBound.v
theories/Proofs/FastCompassReturn.v
theories/Props/PFastCompassReturn.v
theories/Proofs/SystemReturn.v
theories/Props/PSystemReturn.v
theories/Proofs/FastCompassCats.v
theories/Proofs/FastCompassTotals.v
theories/Proofs/SystemReadFast.v
theories/Props/PSystemReadFast.v
theories/Proofs/FastCompassLatest.v
theories/Spec/CounterRaceSpec.v
theories/Props/PCounterRace.v
theories/Proofs/SystemOrder.v
theories/Props/PSystemOrder.v
theories/Proofs/MeanInt.v
theories/Props/PMeanAccuracy.v
theories/Model/NameHeap.v
theories/Spec/NameShareSpec.v
theories/Proofs/NameShare.v
theories/Proofs/NameCalls.v
theories/Proofs/NameProgress.v
theories/Props/PNameShare.v
theories/Proofs/SystemLast.v
theories/Props/PSystemLast.v
theories/Props/PDecayingReturn.v
theories/Props/PReservoirReturn.v
theories/Spec/RegistryReturnSpec.v
theories/Props/PRegistryReturn.v
