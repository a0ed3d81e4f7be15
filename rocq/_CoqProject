-Q theories Verif
theories/Base/CInt.v
theories/Base/CMem.v
theories/Base/CStr.v
theories/Base/Tm.v
theories/Model/AnyTable.v
theories/Model/ArgCat.v
theories/Model/ArgDate.v
theories/Model/ArgFile.v
theories/Model/ArgInt.v
theories/Model/ArgMemory.v
theories/Model/ArgObject.v
theories/Model/Argtable.v
theories/Model/Callers.v
theories/Model/Calls.v
theories/Model/Child.v
theories/Model/Config.v
theories/Model/Constants.v
theories/Model/Dstr.v
theories/Model/Files.v
theories/Model/Getopt.v
theories/Model/GetoptFull.v
theories/Model/HashItr.v
theories/Model/HashTable.v
theories/Model/Judger.v
theories/Model/Killed.v
theories/Model/Logger.v
theories/Model/LuaBinding.v
theories/Model/LuaMemory.v
theories/Model/Main.v
theories/Model/Messages.v
theories/Model/Meter.v
theories/Model/Names.v
theories/Model/Neighbours.v
theories/Model/NodeBinding.v
theories/Model/Permute.v
theories/Model/Pipes.v
theories/Model/Processes.v
theories/Model/Program.v
theories/Model/Python.v
theories/Model/PythonDecode.v
theories/Model/Reading.v
theories/Model/Runner.v
theories/Model/Seccomp.v
theories/Model/Shell.v
theories/Model/Sort.v
theories/Model/Stamp.v
theories/Model/Starting.v
theories/Model/Tables.v
theories/Model/Timeout.v
theories/Model/Trex.v
theories/Model/TrexSearch.v
theories/Model/Usage.v
theories/Model/Wrap.v
theories/Proofs/AnyBridge.v
theories/Proofs/AnyGetopt.v
theories/Proofs/AnyLong.v
theories/Proofs/AnySampleFacts.v
theories/Proofs/AnySim.v
theories/Proofs/AnyTableProofs.v
theories/Proofs/AnyTotal.v
theories/Proofs/ArgCatProofs.v
theories/Proofs/ArgIntClaims.v
theories/Proofs/ArgIntProofs.v
theories/Proofs/ArgMemoryProofs.v
theories/Proofs/AskedProofs.v
theories/Proofs/Calendar.v
theories/Proofs/CallerProofs.v
theories/Proofs/CallerSampleFacts.v
theories/Proofs/CallsProofs.v
theories/Proofs/ChildClaims.v
theories/Proofs/ChildExec.v
theories/Proofs/ChildProofs.v
theories/Proofs/CommandClaims.v
theories/Proofs/CompareProofs.v
theories/Proofs/ConstantsProofs.v
theories/Proofs/ContainSampleFacts.v
theories/Proofs/DateClaims.v
theories/Proofs/DateMain.v
theories/Proofs/DateRead.v
theories/Proofs/DateRound.v
theories/Proofs/DateSteps.v
theories/Proofs/DateTakes.v
theories/Proofs/DateTotal.v
theories/Proofs/DecimalFacts.v
theories/Proofs/DoubleProofs.v
theories/Proofs/DstrProofs.v
theories/Proofs/FileOk.v
theories/Proofs/FilesFacts.v
theories/Proofs/FilesOpen.v
theories/Proofs/FilesProofs.v
theories/Proofs/GetoptCalls.v
theories/Proofs/GetoptEnds.v
theories/Proofs/GetoptLong.v
theories/Proofs/GetoptNames.v
theories/Proofs/GetoptProofs.v
theories/Proofs/GetoptRefines.v
theories/Proofs/GetoptSteps.v
theories/Proofs/GetoptTotal.v
theories/Proofs/GetoptWords.v
theories/Proofs/HashAny.v
theories/Proofs/HashClaims.v
theories/Proofs/HashItrProofs.v
theories/Proofs/HashTableProofs.v
theories/Proofs/InvocationClaims.v
theories/Proofs/InvocationProofs.v
theories/Proofs/JsonProofs.v
theories/Proofs/JudgerClaims.v
theories/Proofs/JudgerProofs.v
theories/Proofs/JudgerSampleFacts.v
theories/Proofs/KilledProofs.v
theories/Proofs/KilledSampleFacts.v
theories/Proofs/LifeProofs.v
theories/Proofs/LogProofs.v
theories/Proofs/LogReadback.v
theories/Proofs/LogSampleFacts.v
theories/Proofs/LogSchedules.v
theories/Proofs/LuaMemoryProofs.v
theories/Proofs/LuaProofs.v
theories/Proofs/LuaSampleFacts.v
theories/Proofs/MainProofs.v
theories/Proofs/MessageProofs.v
theories/Proofs/MeterAny.v
theories/Proofs/MeterClaims.v
theories/Proofs/MeterProofs.v
theories/Proofs/NamesProofs.v
theories/Proofs/NamesUse.v
theories/Proofs/NeighbourClaims.v
theories/Proofs/NeighbourProofs.v
theories/Proofs/NoLogProofs.v
theories/Proofs/NodeClaims.v
theories/Proofs/NodeEndFacts.v
theories/Proofs/NodeEnds.v
theories/Proofs/NodeOutput.v
theories/Proofs/NodeProofs.v
theories/Proofs/NodeSampleFacts.v
theories/Proofs/ObjectFacts.v
theories/Proofs/ObjectMake.v
theories/Proofs/ObjectMem.v
theories/Proofs/ObjectProofs.v
theories/Proofs/ObjectUses.v
theories/Proofs/OutputProofs.v
theories/Proofs/ParseSim.v
theories/Proofs/PermuteProofs.v
theories/Proofs/PipeProofs.v
theories/Proofs/PipeSampleFacts.v
theories/Proofs/PlainProofs.v
theories/Proofs/ProcAccount.v
theories/Proofs/ProcBase.v
theories/Proofs/ProcChild.v
theories/Proofs/ProcFilter.v
theories/Proofs/ProcLimit.v
theories/Proofs/ProcMislead.v
theories/Proofs/ProcResults.v
theories/Proofs/ProgramProofs.v
theories/Proofs/PythonClaims.v
theories/Proofs/PythonOutcome.v
theories/Proofs/PythonProofs.v
theories/Proofs/PythonTypes.v
theories/Proofs/ReadingProofs.v
theories/Proofs/RegexUnique.v
theories/Proofs/RegistryClaims.v
theories/Proofs/ReportFacts.v
theories/Proofs/ReportProofs.v
theories/Proofs/ResourceProofs.v
theories/Proofs/RunnerClaims.v
theories/Proofs/RunnerProofs.v
theories/Proofs/SampleFacts.v
theories/Proofs/SeccompProofs.v
theories/Proofs/ShellProofs.v
theories/Proofs/ShellSampleFacts.v
theories/Proofs/SortProofs.v
theories/Proofs/StampProofs.v
theories/Proofs/StartingProofs.v
theories/Proofs/StartingUser.v
theories/Proofs/TableProofs.v
theories/Proofs/TimeoutClaims.v
theories/Proofs/TimeoutProofs.v
theories/Proofs/TimeoutReport.v
theories/Proofs/TimeoutTimed.v
theories/Proofs/TrexChars.v
theories/Proofs/TrexClaims.v
theories/Proofs/TrexCompile.v
theories/Proofs/TrexExact.v
theories/Proofs/TrexForward.v
theories/Proofs/TrexGroups.v
theories/Proofs/TrexParse.v
theories/Proofs/TrexRefuted.v
theories/Proofs/TrexRep.v
theories/Proofs/TrexSearchClaims.v
theories/Proofs/TrexSearchRefuted.v
theories/Proofs/TrexSubs.v
theories/Proofs/TrexTotal.v
theories/Proofs/UsageErrors.v
theories/Proofs/UsageProofs.v
theories/Proofs/UsageSampleFacts.v
theories/Proofs/WrapClaims.v
theories/Proofs/WrapProofs.v
theories/Proofs/WritingProofs.v
theories/Props/P01_Verdict.v
theories/Props/P02_Child.v
theories/Props/P03_Seccomp.v
theories/Props/P04_Timeout.v
theories/Props/P05_ArgInt.v
theories/Props/P06_CommandLine.v
theories/Props/P07_Buffers.v
theories/Props/P08_Messages.v
theories/Props/P09_Output.v
theories/Props/P10_Python.v
theories/Props/P11_Log.v
theories/Props/P12_Bindings.v
theories/Props/P13_Node.v
theories/Props/P14_Judger.v
theories/Props/P15_Program.v
theories/Props/P16_Resources.v
theories/Props/P17_LuaMemory.v
theories/Props/P18_ArgMemory.v
theories/Props/P19_Sort.v
theories/Props/P20_Commands.v
theories/Props/P21_Wrap.v
theories/Props/P22_Regex.v
theories/Props/P23_Files.v
theories/Props/P24_Dates.v
theories/Props/P25_Written.v
theories/Props/P26_Objects.v
theories/Props/P27_Callers.v
theories/Props/P28_Usage.v
theories/Props/P29_UsageErrors.v
theories/Props/P30_Doubles.v
theories/Props/P31_AnyTable.v
theories/Props/P32_Processes.v
theories/Props/P33_Killed.v
theories/Props/P34_Pipes.v
theories/Props/P35_Getopt.v
theories/Props/P36_Tables.v
theories/Props/P37_Meter.v
theories/Props/P38_Neighbours.v
theories/Props/P39_HashTable.v
theories/Props/P40_RegexSearch.v
theories/Props/P41_LogReadback.v
theories/Props/P42_Compare.v
theories/Props/P43_Life.v
theories/Props/P44_Calls.v
theories/Props/P45_Names.v
theories/Props/P46_Reading.v
theories/Props/P47_Starting.v
theories/Props/P48_Shell.v
theories/Props/P49_Reported.v
theories/Props/P50_Asked.v
theories/Props/P51_Iterators.v
theories/Spec/AnyLine.v
theories/Spec/AnySamples.v
theories/Spec/AnySpec.v
theories/Spec/AnyTableSpec.v
theories/Spec/ArgMemorySpec.v
theories/Spec/AskedSpec.v
theories/Spec/CallerSamples.v
theories/Spec/CallerSpec.v
theories/Spec/CallsSpec.v
theories/Spec/ChildSamples.v
theories/Spec/CmdLine.v
theories/Spec/CommandSpec.v
theories/Spec/CompareSpec.v
theories/Spec/ContainSamples.v
theories/Spec/ContainSpec.v
theories/Spec/DateSpec.v
theories/Spec/DoubleSpec.v
theories/Spec/DstrSpec.v
theories/Spec/FileSpec.v
theories/Spec/FilesSamples.v
theories/Spec/FilesSpec.v
theories/Spec/GetoptAnswer.v
theories/Spec/GetoptSamples.v
theories/Spec/GetoptSpec.v
theories/Spec/HashItrSpec.v
theories/Spec/HashSpec.v
theories/Spec/IntText.v
theories/Spec/Invocation.v
theories/Spec/Json.v
theories/Spec/JudgerSamples.v
theories/Spec/JudgerSpec.v
theories/Spec/KilledSamples.v
theories/Spec/LifeSpec.v
theories/Spec/LogSamples.v
theories/Spec/LogSpec.v
theories/Spec/LuaMemorySpec.v
theories/Spec/LuaSamples.v
theories/Spec/LuaSpec.v
theories/Spec/MessageSpec.v
theories/Spec/MeterSpec.v
theories/Spec/NamesSpec.v
theories/Spec/NeighbourSpec.v
theories/Spec/NoLog.v
theories/Spec/NodeEndSamples.v
theories/Spec/NodeSamples.v
theories/Spec/NodeSpec.v
theories/Spec/ObjectSamples.v
theories/Spec/ObjectSpec.v
theories/Spec/OutputSpec.v
theories/Spec/PipeSamples.v
theories/Spec/PipeSpec.v
theories/Spec/PlainSpec.v
theories/Spec/ProcSamples.v
theories/Spec/ProcSpec.v
theories/Spec/PythonSpec.v
theories/Spec/ReadingSpec.v
theories/Spec/RegexSpec.v
theories/Spec/ReportSpec.v
theories/Spec/ResourceSpec.v
theories/Spec/RunSpec.v
theories/Spec/Samples.v
theories/Spec/SandboxSpec.v
theories/Spec/SearchSpec.v
theories/Spec/ShellSpec.v
theories/Spec/SortSpec.v
theories/Spec/StampSpec.v
theories/Spec/StartingSpec.v
theories/Spec/Syscalls.v
theories/Spec/TableSpec.v
theories/Spec/TimeoutSamples.v
theories/Spec/TimeoutSpec.v
theories/Spec/UsageSamples.v
theories/Spec/UsageSpec.v
theories/Spec/Utf8.v
theories/Spec/Verdict.v
theories/Spec/WrapSpec.v
theories/Spec/Writing.v
