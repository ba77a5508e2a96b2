-Q theories Verif
theories/Base.v
theories/Trees.v
theories/Lists.v
theories/TreeImpl.v
theories/TreeInv.v
theories/Spec.v
theories/Iface.v
theories/UnitModel.v
theories/UnitInv.v
theories/UnitOps.v
theories/UnitLinks.v
theories/LinkModel.v
theories/SplitModel.v
theories/Forest.v
theories/SplitInv.v
theories/SplitReads.v
theories/SplitOps.v
theories/SplitWrites.v
theories/SplitLinks.v
theories/Doublets.v
theories/Obs.v
theories/DoubletsOK.v
theories/Hist.v
theories/Claims.v
theories/UnitHist.v
theories/SplitHist.v
theories/SplitClaims.v
theories/Crash.v
theories/CrashWrites.v
theories/CrashClaims.v
theories/Layout.v
theories/SourceList.v
theories/Display.v
theories/Macros.v
theories/MacroClaims.v
theories/UnitClaims.v
theories/DefaultClaims.v
theories/SplitDefaults.v
theories/Decorators.v
theories/GoodStore.v
theories/DecoratorClaims.v
theories/Ffi.v
theories/FfiClaims.v
theories/RepoTests.v
theories/RandomTest.v
theories/MemUse.v
theories/HandlerClaims.v
theories/Future.v
theories/Order.v
theories/SplitCrash.v
theories/SplitCrashClaims.v
theories/PropUnit.v
theories/PropDefaults.v
theories/PropDecorators.v
theories/PropFfi.v
theories/PropSplit.v
theories/PropSplitDefaults.v
theories/PropRandom.v
theories/PropMem.v
theories/PropCrash.v
theories/PropMacro.v
theories/PropLayout.v
theories/PropSourceList.v
theories/PropDisplay.v
theories/PropHandlers.v
theories/PropFuture.v
theories/PropOrder.v
theories/PropSplitCrash.v
theories/SplitDecorators.v
theories/PropSplitDecorators.v
theories/Stacks.v
theories/PropStacks.v
theories/RebaseHalf.v
theories/PropRebaseHalf.v
theories/SplitFailures.v
theories/PropSplitFailures.v
theories/Failures.v
theories/PropFailures.v
theories/Accessors.v
theories/PropAccessors.v
theories/TreeProgs.v
theories/PropTreeProgs.v
theories/CrashInside.v
theories/PropCrashInside.v
theories/CrashSteps.v
theories/PropCrashSteps.v
theories/CrashLists.v
theories/PropCrashLists.v
theories/Overflow.v
theories/PropOverflow.v
theories/EndQueries.v
theories/PropEndQueries.v
theories/Scars.v
theories/AfterCrash.v
theories/PropAfterCrash.v
theories/SplitLife.v
theories/PropSplitLife.v
theories/Sequences.v
theories/PropSequences.v
theories/SplitFree.v
theories/PropSplitFree.v
theories/SplitScars.v
theories/SplitAfterCrash.v
theories/PropSplitAfterCrash.v
theories/CrashDefaults.v
theories/PropCrashDefaults.v
theories/Unwind.v
theories/PropUnwind.v
theories/JsText.v
theories/Release.v
theories/ReleaseVersion.v
theories/PropReleaseVersion.v
theories/ReleaseNotes.v
theories/PropReleaseNotes.v
theories/ReleaseLog.v
theories/PropReleaseLog.v
theories/ReleaseRun.v
theories/PropReleaseRun.v
theories/Workflow.v
theories/ReleaseJobs.v
theories/PropReleaseJobs.v
theories/FreeDefaults.v
theories/PropFreeDefaults.v
theories/FreeRebase.v
theories/PropFreeRebase.v
theories/Pipeline.v
theories/PipelineClaims.v
theories/PropPipeline.v
theories/FreeDecorators.v
theories/PropFreeDecorators.v
theories/Cancelled.v
theories/CancelledClaims.v
theories/PropCancelled.v
theories/Bench.v
theories/PropBench.v
theories/WrapModel.v
theories/WrapClaims.v
theories/PropWrap.v
theories/WrapDecorators.v
theories/PropWrapDecorators.v
theories/WrapStates.v
theories/PropWrapStates.v
theories/WrapBench.v
theories/PropWrapBench.v
