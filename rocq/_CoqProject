-Q theories Verif
theories/Base.v
theories/QtStr.v
theories/Lev.v
theories/Diff.v
theories/Save.v
theories/LinesChanged.v
theories/Regex.v
theories/Patterns.v
theories/Parser.v
theories/SpecEdit.v
theories/SpecInline.v
theories/SpecHistory.v
theories/SpecPatch.v
theories/SpecRegex.v
theories/SpecParse.v
theories/PLevTable.v
theories/PLevWalk.v
theories/PLev.v
theories/PropsLev.v
theories/PHistory.v
theories/PropsHistory.v
theories/PMarkLoop.v
theories/PPatch.v
theories/PEditLines.v
theories/PropsEdit.v
theories/PRegex.v
theories/PRegexLang.v
theories/PParse.v
theories/PUnified.v
theories/PHeaders.v
theories/PFileHeads.v
theories/PUnifiedDoc.v
theories/PFuel.v
theories/PAnyInput.v
theories/PDefined.v
theories/PropsParse.v
theories/Paths.v
theories/SpecText.v
theories/PropsText.v
theories/SpecUnified.v
theories/PUnifiedPrint.v
theories/PUnifiedRead.v
theories/PropsUnified.v
theories/PropsRecreate.v
theories/SpecNormal.v
theories/PNormal.v
theories/PStar.v
theories/PNormalDoc.v
theories/PropsNormal.v
theories/SpecContext.v
theories/PContext.v
theories/PContextDoc.v
theories/PropsContext.v
theories/Blend.v
theories/SpecBlend.v
theories/PBlend.v
theories/PSave.v
theories/PropsBlend.v
theories/SpecWorkflow.v
theories/PWorkflow.v
theories/PropsWorkflow.v
theories/Info.v
theories/ModelList.v
theories/SpecList.v
theories/PModelState.v
theories/PList.v
theories/PListOpen.v
theories/PropsList.v
theories/Settings.v
theories/Process.v
theories/SaveDiff.v
theories/SpecProcess.v
theories/PProcess.v
theories/PSettings.v
theories/PropsProcess.v
theories/Conformance.v
theories/World.v
theories/SpecWorld.v
theories/PKin.v
theories/PWorld.v
theories/PropsRewritten.v
theories/PropsWorld.v
theories/PropsTouched.v
theories/SpecFormat.v
theories/PropsFormat.v
theories/SpecMarkers.v
theories/PropsMarkers.v
theories/SpecEdited.v
theories/PropsEdited.v
theories/SpecCalls.v
theories/PropsCalls.v
theories/PropsPlaces.v
theories/Memory.v
theories/PropsMemory.v
theories/Codec.v
theories/SpecCodec.v
theories/PropsCodec.v
theories/PropsStrings.v
theories/SpecPerforce.v
theories/PPerforce.v
theories/PropsPerforce.v
theories/SpecInts.v
theories/Ints.v
theories/PInts.v
theories/PropsInts.v
theories/Jobs.v
theories/SpecJobs.v
theories/PropsJobs.v
theories/Rounds.v
theories/SpecRounds.v
theories/PropsRounds.v
theories/SpecBlendSave.v
theories/PropsBlendSave.v
theories/SpecCvsNormal.v
theories/PropsCvsNormal.v
theories/SpecMissing.v
theories/PMissing.v
theories/PropsMissing.v
theories/SpecSmall.v
theories/PSmall.v
theories/PropsSmall.v
theories/PropsReopen.v
theories/SpecUnstamped.v
theories/PropsUnstamped.v
theories/Life.v
theories/PFar.v
theories/PropsLife.v
theories/LifeWorld.v
theories/PropsLifeWorld.v
theories/Nested.v
theories/PropsNested.v
theories/PropsNestedSafe.v
theories/Copying.v
theories/PropsCopying.v
theories/PGood.v
theories/PropsSound.v
theories/PropsHeld.v
theories/PropsTotal.v
theories/PropsEveryPair.v
theories/SpecLines.v
theories/PLines.v
theories/PLineHeads.v
theories/PLineChunks.v
theories/PropsLines.v
theories/PLineSame.v
theories/PLineUnified.v
theories/PropsListThere.v
theories/SpecCrash.v
theories/PCrash.v
theories/PCrashContext.v
theories/PropsCrash.v
theories/SpecSaved.v
theories/PSaved.v
theories/PropsSaved.v
theories/Setters.v
theories/SpecSetters.v
theories/PropsSetters.v
theories/SpecWaiting.v
theories/PropsWaiting.v
theories/PropsFlip.v
theories/SpecTold.v
theories/PropsTold.v
theories/SpecInfo.v
theories/PropsInfo.v
theories/SpecStranded.v
theories/PropsStranded.v
theories/PropsOversize.v
theories/Signals.v
theories/SpecSignals.v
theories/PSignals.v
theories/PropsSignals.v
theories/Reentrant.v
theories/SpecReentrant.v
theories/PReentrant.v
theories/PropsReentrant.v
theories/SpecWork.v
theories/PWork.v
theories/PropsWork.v
theories/PropsTyped.v
theories/PropsIntsEdits.v
theories/PropsExamples.v
theories/SpecCr.v
theories/PCr.v
theories/PropsCr.v
theories/SpecGit.v
theories/PropsGit.v
theories/SpecBetween.v
theories/PropsBetween.v
