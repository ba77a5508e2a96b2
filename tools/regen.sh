#!/bin/bash
# Regenerate the property files and MANIFEST.json from the claims; run anywhere.
cd "$(dirname "$0")/../rocq" || exit 1
gen() { python3 ../tools/genprops.py theories/$1.v theories/$2.v "$(head -1 theories/$2.v | sed 's/^(\*\* //; s/ \*)$//')" > /dev/null; }
gen UnitClaims PropUnit; gen DefaultClaims PropDefaults; gen DecoratorClaims PropDecorators
gen FfiClaims PropFfi; gen SplitClaims PropSplit; gen SplitDefaults PropSplitDefaults
gen RandomTest PropRandom; gen MemUse PropMem; gen CrashClaims PropCrash; gen MacroClaims PropMacro; gen Layout PropLayout; gen SourceList PropSourceList; gen Display PropDisplay; gen HandlerClaims PropHandlers; gen Future PropFuture; gen Order PropOrder; gen SplitCrashClaims PropSplitCrash; gen SplitDecorators PropSplitDecorators; gen Stacks PropStacks; gen RebaseHalf PropRebaseHalf; gen SplitFailures PropSplitFailures; gen Failures PropFailures; gen Accessors PropAccessors; gen TreeProgs PropTreeProgs; gen CrashInside PropCrashInside; gen CrashSteps PropCrashSteps; gen CrashLists PropCrashLists; gen Overflow PropOverflow; gen EndQueries PropEndQueries; gen AfterCrash PropAfterCrash; gen SplitLife PropSplitLife; gen Sequences PropSequences; gen SplitFree PropSplitFree; gen SplitAfterCrash PropSplitAfterCrash; gen CrashDefaults PropCrashDefaults; gen Unwind PropUnwind; gen ReleaseVersion PropReleaseVersion; gen ReleaseNotes PropReleaseNotes; gen ReleaseLog PropReleaseLog; gen ReleaseRun PropReleaseRun; gen ReleaseJobs PropReleaseJobs; gen FreeDefaults PropFreeDefaults; gen FreeRebase PropFreeRebase; gen PipelineClaims PropPipeline; gen FreeDecorators PropFreeDecorators; gen CancelledClaims PropCancelled; gen Bench PropBench; gen WrapClaims PropWrap; gen WrapDecorators PropWrapDecorators; gen WrapStates PropWrapStates; gen WrapBench PropWrapBench
cd .. && python3 tools/manifest.py
