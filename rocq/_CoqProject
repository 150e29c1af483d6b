-Q theories Verif
theories/Base.v
theories/SliceItemsModel.v
theories/BinPartsModel.v
theories/Api.v
theories/DataModel.v
theories/RcModel.v
theories/Spec.v
theories/BaseLemmas.v
theories/BinPartsProof.v
theories/SliceItemsProof.v
theories/DataInv.v
theories/DataSteps.v
theories/DataFuns.v
theories/GuardInv.v
theories/GuardSteps.v
theories/GuardFuns.v
theories/RelInv.v
theories/RelOps.v
theories/RelMut.v
theories/RelParts.v
theories/Refine.v
theories/Observe.v
theories/Facts.v
theories/SpecTheory.v
theories/Frame.v
theories/Views.v
theories/RcTheory.v
theories/ShareTheory.v
theories/WriteTheory.v
theories/Conserve.v
theories/ConserveTheory.v
theories/IterTheory.v
theories/LeakTheory.v
theories/ZstTheory.v
theories/DebugTheory.v
theories/ArcModel.v
theories/ArcConc.v
theories/ArcSpec.v
theories/ArcInv.v
theories/ArcRelInv.v
theories/ArcRelOps.v
theories/ArcRelMut.v
theories/ArcRelParts.v
theories/ArcRefine.v
theories/ArcObserve.v
theories/ArcFacts.v
theories/ArcTheory.v
theories/ArcConserve.v
theories/ArcLeak.v
theories/ArcShare.v
theories/ArcSim.v
theories/ArcSame.v
theories/ArcDemo.v
theories/ConcInv.v
theories/ConcGuard.v
theories/ConcWorld.v
theories/ConcChild.v
theories/ConcData.v
theories/ConcSafe.v
theories/ConcSpec.v
theories/LiveSpec.v
theories/ConcTheory.v
theories/ConcConserve.v
theories/ConcShare.v
theories/ConcTree.v
theories/ConcCov.v
theories/ConcCalm.v
theories/ConcHold.v
theories/ConcItem.v
theories/ConcQuiet.v
theories/SoloFuel.v
theories/ConcSolo.v
theories/ConcCall.v
theories/ConcAlone.v
theories/ConcEnd.v
theories/ConcWind.v
theories/ConcLive.v
theories/ConcFair.v
theories/ConcExact.v
theories/AloneCheck.v
theories/PropAlone.v
theories/LiveCheck.v
theories/PropLive.v
theories/ConcRaces.v
theories/ConcCheck.v
theories/Tidy.v
theories/TidySpec.v
theories/TidyTheory.v
theories/ArcTidy.v
theories/PropTidy.v
theories/PropConc.v
theories/PropArc.v
theories/PropRefine.v
theories/Demo.v
theories/PropSplit.v
theories/PropMemory.v
theories/PropMut.v
theories/PropIter.v
theories/PropWrite.v
theories/PanicModel.v
theories/TraceHom.v
theories/PanicObserve.v
theories/PanicTheory.v
theories/QuietTheory.v
theories/PanicRun.v
theories/ArcPanicRun.v
theories/PanicDemo.v
theories/PropPanic.v
theories/OrderModel.v
theories/OrderInv.v
theories/OrderSteps.v
theories/OrderFlow.v
theories/OrderCalls.v
theories/OrderNew.v
theories/OrderTheory.v
theories/OrderHold.v
theories/OrderDemo.v
theories/PropOrder.v
theories/PubModel.v
theories/PubCount.v
theories/PubEvents.v
theories/PubInv.v
theories/PubSteps.v
theories/PubFlow.v
theories/PubTheory.v
theories/PubDemo.v
theories/PropPub.v
theories/WeakModel.v
theories/WeakInv.v
theories/WeakTheory.v
theories/WeakMut.v
theories/WeakDemo.v
theories/PropWeak.v
theories/TraitModel.v
theories/TraitObserve.v
theories/TraitTheory.v
theories/TraitLaws.v
theories/PropTrait.v
theories/ReentSpec.v
theories/ReentTheory.v
theories/ReentItem.v
theories/ReentCheck.v
theories/PropReent.v
