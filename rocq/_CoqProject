-Q theories Verif
theories/Outcome.v
theories/Calls.v
theories/Arith.v
theories/RingBuffer.v
theories/LinkedList.v
theories/Utils.v
theories/IBin.v
theories/Histogram.v
theories/Mean.v
theories/P2.v
theories/Fame.v
theories/Entropy.v
theories/RingBufferConc.v
theories/Spec.v
theories/RingBufferConcSpec.v
theories/LinkedListSpec.v
theories/ListFacts.v
theories/RingBufferFacts.v
theories/LinkedListFacts.v
theories/RingBufferConcFacts.v
theories/RingStepsSpec.v
theories/RingSteps.v
theories/LinkedListConc.v
theories/LinkedListConcFacts.v
theories/FloatSpec.v
theories/FloatFacts.v
theories/UtilsFacts.v
theories/UtilsMono.v
theories/HistSpec.v
theories/HistFacts.v
theories/AllocFail.v
theories/AllocFailSpec.v
theories/AllocFailFacts.v
theories/HistOrder.v
theories/HistStreams.v
theories/HistQuant.v
theories/MeanSpec.v
theories/MeanFacts.v
theories/FameSpec.v
theories/FameFacts.v
theories/P2Spec.v
theories/P2Facts.v
theories/P2Float.v
theories/P2Jain.v
theories/P2JainFacts.v
theories/P2Window.v
theories/P2Witness.v
theories/HistWitness.v
theories/EntropySpec.v
theories/EntropyFacts.v
theories/EntropyDrift.v
theories/EntropyFull.v
theories/EntropyBins.v
theories/CounterSpec.v
theories/CounterFacts.v
theories/Defaults.v
theories/PyFloat.v
theories/PyFloatSpec.v
theories/Cython.v
theories/CythonSpec.v
theories/CythonFacts.v
theories/PyFloatFacts.v
theories/HistExactSpec.v
theories/HistExact.v
theories/HistEmp.v
theories/PRing.v
theories/PList.v
theories/PUtils.v
theories/PMean.v
theories/PBatch.v
theories/PFame.v
theories/AskSpec.v
theories/P2Affine.v
theories/PP2Affine.v
theories/ScaleSpec.v
theories/HistScale.v
theories/PHistScale.v
theories/FameConv.v
theories/FameScale.v
theories/PFameScale.v
theories/FameDead.v
theories/PFameConv.v
theories/PP2.v
theories/PHist.v
theories/PHistQ.v
theories/PHistExact.v
theories/HistCdf.v
theories/PHistCdf.v
theories/MirrorSpec.v
theories/Mirror.v
theories/PMirror.v
theories/PyHist.v
theories/PyHistSpec.v
theories/PyHistFacts.v
theories/PPyHist.v
theories/PRingSteps.v
theories/PAllocFail.v
theories/HistMax.v
theories/PHistMax.v
theories/MeanError.v
theories/MeanGrowth.v
theories/VarError.v
theories/PMeanError.v
theories/PEntropy.v
theories/EntropyRound.v
theories/PEntropyRound.v
theories/Replay.v
theories/PCounter.v
theories/PPython.v
theories/PyIterate.v
theories/PyIterateSpec.v
theories/PyIterateFacts.v
theories/PPyIterate.v
theories/Wrap64.v
theories/Wrap64Facts.v
theories/PWrap64.v
theories/Printing.v
theories/PrintingSpec.v
theories/PrintingFacts.v
theories/PPrinting.v
theories/FailMake.v
theories/FailMakeSpec.v
theories/FailMakeFacts.v
theories/PFailMake.v
theories/WeakMem.v
theories/WeakMemSpec.v
theories/WeakMemFacts.v
theories/PWeakMem.v
theories/Work.v
theories/WorkSpec.v
theories/WorkFacts.v
theories/PWork.v
theories/NanSpec.v
theories/NanFacts.v
theories/PNan.v
theories/Members.v
theories/MembersSpec.v
theories/MembersRing.v
theories/MembersFacts.v
theories/MembersStat.v
theories/PMembers.v
theories/Contract.v
theories/ContractP2.v
theories/ContractFacts.v
theories/ContractStat.v
theories/ContractEntropy.v
theories/ContractClose.v
theories/PContract.v
theories/InfFacts.v
theories/PInf.v
theories/EntropyFail.v
theories/EntropyFailSpec.v
theories/EntropyFailFacts.v
theories/PEntropyFail.v
theories/UnitSpec.v
theories/UnitNum.v
theories/UnitHist.v
theories/UnitMean.v
theories/UnitP2.v
theories/UnitWitness.v
theories/PUnit.v
theories/OrderFacts.v
theories/POrder.v
theories/GroupSpec.v
theories/GroupFacts.v
theories/GroupNum.v
theories/PGroup.v
theories/SwallowSpec.v
theories/SwallowFacts.v
theories/SwallowNum.v
theories/PSwallow.v
theories/P2Outlier.v
theories/POutlier.v
theories/FameFarSpec.v
theories/FameFar.v
theories/PFar.v
theories/MonoFacts.v
theories/PMono.v
theories/GridSpec.v
theories/GridFacts.v
theories/PGrid.v
theories/FameGridFacts.v
theories/PFameGrid.v
theories/ThrowCopy.v
theories/ThrowSpec.v
theories/ThrowFacts.v
theories/PThrow.v
theories/PyArgSpec.v
theories/PyArgFacts.v
theories/PPyArgs.v
theories/UnitFameSpec.v
theories/UnitFame.v
theories/UnitWp2.v
theories/UnitMoreWitness.v
theories/PUnitMore.v
theories/WpRange.v
theories/PWpRange.v
theories/AskWinSpec.v
theories/AskWin.v
theories/PAskWin.v
theories/MeanRel.v
theories/VarRel.v
theories/PMeanRel.v
theories/Ownership.v
theories/OwnSpec.v
theories/OwnFacts.v
theories/PMemory.v
theories/P2TrackSpec.v
theories/P2Track.v
theories/P2TrackDouble.v
theories/PP2Track.v
theories/P2SlowSpec.v
theories/P2Slow.v
theories/PP2Slow.v
theories/FameMedian.v
theories/PFameMedian.v
theories/FameTrack.v
theories/PFameTrack.v
theories/RaceFacts.v
theories/LinkedListConcSpec.v
theories/LinkedListRace.v
theories/PRace.v
theories/P2WinLife.v
theories/PP2Life.v
theories/HistSlideSpec.v
theories/HistSlide.v
theories/PHistSlide.v
theories/EntropySlideSpec.v
theories/EntropySlide.v
theories/PEntropySlide.v
theories/PHistReset.v
