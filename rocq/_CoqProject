-Q theories Verif
theories/Base.v
theories/PathModel.v
theories/EventModel.v
theories/EventSpec.v
theories/EventFacts.v
theories/PropsEvent.v
theories/Sys.v
theories/SysFacts.v
theories/LinuxModel.v
theories/InotifyModel.v
theories/FanotifyModel.v
theories/LinuxWatch.v
theories/LinuxSpec.v
theories/LinuxFacts.v
theories/LinuxRun.v
theories/LinuxProps.v
theories/LinuxFds.v
theories/LinuxChoice.v
theories/InotifySpec.v
theories/InotifyFacts.v
theories/InotifyRun.v
theories/InotifyClaims.v
theories/LinuxLoop.v
theories/InotifyTree.v
theories/WalkSpec.v
theories/WalkFacts.v
theories/ExampleOs.v
theories/InotifyMore.v
theories/LinuxExamples.v
theories/PropsLinux.v
theories/LinuxEnds.v
theories/PropsEnds.v
theories/PropsInotify.v
theories/FanotifySpec.v
theories/FanotifyFacts.v
theories/FanotifyLoop.v
theories/FanotifyRun.v
theories/PropsFanotify.v
theories/SemabinModel.v
theories/SemabinFacts.v
theories/WatchModel.v
theories/WatchSpec.v
theories/WatchFacts.v
theories/WatchStop.v
theories/WatchClaims.v
theories/WatchLife.v
theories/WatchProgress.v
theories/WatchExamples.v
theories/PropsWatch.v
theories/Mon.v
theories/WarthogModel.v
theories/WarthogSpec.v
theories/WarthogFacts.v
theories/WarthogRun.v
theories/WarthogWhole.v
theories/PropsWarthog.v
theories/DarwinModel.v
theories/DarwinSpec.v
theories/DarwinFacts.v
theories/DarwinLife.v
theories/PropsDarwin.v
theories/WindowsModel.v
theories/WindowsSpec.v
theories/WindowsFacts.v
theories/WindowsRun.v
theories/PropsWindows.v
theories/PropsWindowsMessages.v
theories/WinWorldSpec.v
theories/WinWorldFacts.v
theories/WinTypes.v
theories/WinTrue.v
theories/PropsWinWorld.v
theories/Utf8Spec.v
theories/BindModel.v
theories/BindSpec.v
theories/BindFacts.v
theories/PropsBind.v
theories/CliModel.v
theories/CliSpec.v
theories/PropsCli.v
theories/WideModel.v
theories/PropsWide.v
theories/BindLife.v
theories/PropsLife.v
theories/TinyModel.v
theories/PropsTiny.v
theories/ThrowModel.v
theories/PropsThrow.v
theories/TimeSpec.v
theories/TimeFacts.v
theories/TimeLinux.v
theories/TimeOther.v
theories/PropsTimes.v
theories/SetupSpec.v
theories/LinuxSetup.v
theories/PropsSetup.v
theories/KernelSpec.v
theories/KernelFacts.v
theories/KernelRun.v
theories/KernelWatch.v
theories/KernelTime.v
theories/PropsKernel.v
theories/PropsMoves.v
theories/PropsWhole.v
theories/PropsChain.v
theories/PropsParts.v
theories/WholeLife.v
theories/PropsWinWhole.v
theories/PropsWarthogWhole.v
theories/WarthogMemory.v
theories/PropsWarthogMemory.v
theories/Shift.v
theories/FanWorldSpec.v
theories/FanWorldFacts.v
theories/FanWorldRun.v
theories/FanWorldLast.v
theories/PropsFanWorld.v
theories/Answers.v
theories/FanTreeSpec.v
theories/FanTree.v
theories/FanNew.v
theories/PropsFanTree.v
theories/FanLifeSpec.v
theories/FanLife.v
theories/PropsFanWhole.v
theories/DarwinWorldSpec.v
theories/DarwinWorldFacts.v
theories/PropsDarwinWorld.v
theories/DarwinMemory.v
theories/PropsDarwinMemory.v
theories/PropsDarwinWhole.v
theories/JsonSpec.v
theories/JsonExact.v
theories/PropsJson.v
theories/PropsBindExact.v
theories/DeepSpec.v
theories/DeepFacts.v
theories/DeepRun.v
theories/DeepLog.v
theories/DeepWatch.v
theories/PropsDeep.v
theories/RustProgModel.v
theories/PropsRustProg.v
theories/PropsExact.v
theories/DeepTimeSpec.v
theories/DeepTime.v
theories/PropsDeepWhole.v
theories/RenameSpec.v
theories/RenameModel.v
theories/PropsRename.v
theories/PropsDeepNew.v
theories/AndroidModel.v
theories/AndroidSpec.v
theories/AndroidFacts.v
theories/PropsAndroid.v
theories/PropsWarthogLinks.v
theories/PropsDeepChain.v
theories/PyProgModel.v
theories/PropsPyProg.v
theories/PropsWinChain.v
theories/OwnSpec.v
theories/OwnFacts.v
theories/PropsOwn.v
theories/PropsDarwinChain.v
theories/PropsWarthogChain.v
theories/PropsFanChain.v
theories/CliLifeSpec.v
theories/PropsCliLife.v
theories/ManyModel.v
theories/PropsMany.v
theories/PyManyModel.v
theories/PropsPyMany.v
theories/Pin.v
theories/FanDeepSpec.v
theories/FanDeepFacts.v
theories/FanDeepRun.v
theories/PropsFanDeep.v
theories/Names.v
theories/TinyLifeSpec.v
theories/PropsTinyLife.v
theories/FanDeepLifeSpec.v
theories/FanDeepLife.v
theories/PropsFanDeepWhole.v
theories/PropsFanDeepChain.v
theories/MemoryRun.v
theories/DeepMemory.v
theories/PropsMemory.v
theories/PropsCliElsewhere.v
theories/PropsWarthogSeen.v
theories/PropsWarthogTells.v
theories/PropsWarthogAll.v
theories/PropsWarthogRounds.v
