-Q theories Verif
theories/Base.v
theories/Utf8.v
theories/NominalString.v
theories/Format.v
theories/Digital.v
theories/Live.v
theories/Additive.v
theories/Enumerated.v
theories/Ethiopic.v
theories/Hebrew.v
theories/Chinese.v
theories/System.v
theories/Derived.v
theories/Previews.v
theories/Tests.v
theories/Prelude.v
theories/Utf8Facts.v
theories/StringFacts.v
theories/Spec.v
theories/History.v
theories/Layout.v
theories/Slices.v
theories/PropertiesString.v
theories/Cases.v
theories/PropertiesMemory.v
theories/Outcome.v
theories/DigitFacts.v
theories/DigitOrder.v
theories/DigitSets.v
theories/PropertiesDigital.v
theories/SpecAdditive.v
theories/AdditiveFacts.v
theories/AdditiveSets.v
theories/PropertiesAdditive.v
theories/SpecScripts.v
theories/ScriptFacts.v
theories/PropertiesScripts.v
theories/SpecChinese.v
theories/ChineseFacts.v
theories/ChineseSigns.v
theories/ChineseNumeral.v
theories/PropertiesChinese.v
theories/PropertiesSystem.v
theories/PropertiesDistinct.v
theories/PropertiesSize.v
theories/PropertiesUser.v
theories/PropertiesFormat.v
theories/Turns.v
theories/PropertiesTurns.v
theories/PropertiesCalls.v
theories/PropertiesAgree.v
theories/PropertiesBuild.v
theories/PropertiesCaller.v
theories/PropertiesAssembled.v
theories/PropertiesSorted.v
theories/PropertiesComposed.v
theories/PropertiesImage.v
theories/PropertiesMethods.v
theories/PropertiesWrappers.v
theories/PropertiesLength.v
theories/PropertiesPreviewValues.v
theories/PropertiesPreviews.v
theories/PreviewFiles.v
theories/Documentation.v
theories/PropertiesPreviewProgram.v
theories/PropertiesCapacity.v
theories/PropertiesDerived.v
theories/PropertiesDocumentation.v
theories/SpecCss.v
theories/CssFacts.v
theories/PropertiesCss.v
theories/SpecUtf8.v
theories/PropertiesUtf8.v
theories/TestSuite.v
theories/PropertiesTests.v
theories/DebugWrites.v
theories/PropertiesDebug.v
theories/PreviewRun.v
theories/PropertiesPreviewRun.v
theories/TypeLayout.v
theories/PropertiesTypeLayout.v
theories/HeapMemory.v
theories/PropertiesHeap.v
theories/PropertiesAllocation.v
theories/HeapFormat.v
theories/HeapFormatFacts.v
theories/HeapFormatSim.v
theories/HeapFormatErrors.v
theories/PropertiesHeapFormat.v
theories/HeapLive.v
theories/PropertiesHeapLive.v
theories/PropertiesHeapPrograms.v
theories/Casts.v
theories/PropertiesCasts.v
theories/PropertiesFormatCalls.v
theories/PropertiesLimits.v
theories/Aliasing.v
theories/PropertiesAliasing.v
theories/TreeBorrows.v
theories/PropertiesTreeBorrows.v
theories/Pushes.v
theories/PropertiesPushes.v
theories/Threads.v
theories/PropertiesThreads.v
theories/Hashing.v
theories/PropertiesHashing.v
theories/Rust.v
theories/RustRun.v
theories/Sources.v
theories/RustFacts.v
theories/SourceRuns.v
theories/ChineseSource.v
theories/ChineseInner.v
theories/ChineseRanks.v
theories/ChineseShort.v
theories/ChineseRuns.v
theories/ChineseSystems.v
theories/PropertiesSources.v
theories/Tables.v
theories/TableSources.v
theories/PropertiesTables.v
theories/AdapterSources.v
theories/PropertiesAdapters.v
