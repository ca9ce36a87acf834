-Q theories Verif
theories/Model/GoStr.v
theories/Model/UniSpace.v
theories/Spec/WhiteSpaceSpec.v
theories/Model/GoPath.v
theories/Model/Regex.v
theories/Model/Pep440.v
theories/Spec/Pep440Spec.v
theories/Spec/KindSpec.v
theories/Proofs/Order.v
theories/Proofs/Pep440Cmp.v
theories/Proofs/GoStrFacts.v
theories/Proofs/RegexFacts.v
theories/Spec/VersionGrammar.v
theories/Props/P01_VersionOrder.v
theories/Proofs/Pep440Parse.v
theories/Proofs/Pep440Sound.v
theories/Props/P02_VersionParse.v
theories/Model/Specifier.v
theories/Model/Pep345.v
theories/Spec/SpecifierSpec.v
theories/Spec/ExactSpec.v
theories/Spec/PrintedSpec.v
theories/Proofs/SpecifierParse.v
theories/Proofs/SpecifierMatch.v
theories/Proofs/ExactFacts.v
theories/Proofs/PrintedFacts.v
theories/Proofs/Pep345Facts.v
theories/Props/P03_Specifiers.v
theories/Props/P04_RequiresPython.v
theories/Model/WheelName.v
theories/Spec/WheelNameSpec.v
theories/Spec/PathSpec.v
theories/Proofs/GoPathFacts.v
theories/Proofs/WheelNameFacts.v
theories/Model/SimpleAPI.v
theories/Props/P05_WheelNames.v
theories/Spec/SimpleAPISpec.v
theories/Proofs/SimpleAPIFacts.v
theories/Spec/UrlSpec.v
theories/Proofs/UrlFacts.v
theories/Props/P06_PackageIndex.v
theories/Model/Tar.v
theories/Model/Squash.v
theories/Spec/SquashSpec.v
theories/Proofs/SquashTree.v
theories/Proofs/SquashLoad.v
theories/Proofs/SquashSim.v
theories/Proofs/SquashStack.v
theories/Proofs/SquashWf.v
theories/Proofs/SquashInv.v
theories/Proofs/SquashWrite.v
theories/Proofs/SquashReload.v
theories/Proofs/SquashMain.v
theories/Proofs/SquashFinal.v
theories/Proofs/SquashMore.v
theories/Proofs/SquashLinks.v
theories/Proofs/SquashCreate.v
theories/Proofs/SquashBack.v
theories/Proofs/SquashHard.v
theories/Proofs/SquashSources.v
theories/Proofs/SquashInner.v
theories/Proofs/SquashMade.v
theories/Proofs/SquashWheel.v
theories/Proofs/MadeCases.v
theories/Proofs/IndexClientFacts.v
theories/Proofs/SquashEnds.v
theories/Proofs/SquashLoops.v
theories/Proofs/SquashCheck.v
theories/Props/P07_Squash.v
theories/Props/P08_LoadedImage.v
theories/Props/P09_Layers.v
theories/Props/P10_Directories.v
theories/Props/P11_Modes.v
theories/Props/P12_Config.v
theories/Model/VfsFS.v
theories/Model/Layer.v
theories/Model/Dir.v
theories/Model/Stat.v
theories/Model/ConfigParser.v
theories/Model/Platform.v
theories/Model/WheelFile.v
theories/Model/EntryPoints.v
theories/Model/Wheel.v
theories/Model/DirectURL.v
theories/Model/Record.v
theories/Model/LayerDir.v
theories/Model/GoLayer.v
theories/Model/LayerWheel.v
theories/Spec/VfsFSSpec.v
theories/Spec/LayerSpec.v
theories/Spec/DirSpec.v
theories/Spec/StatSpec.v
theories/Spec/ConfigSpec.v
theories/Spec/EntryPointsSpec.v
theories/Spec/PlatformSpec.v
theories/Spec/WheelSpec.v
theories/Proofs/VfsFSFacts.v
theories/Proofs/VfsImage.v
theories/Proofs/VfsRuns.v
theories/Proofs/LayerFacts.v
theories/Proofs/DirFacts.v
theories/Proofs/StatFacts.v
theories/Proofs/TarModes.v
theories/Proofs/WhiteSpaceFacts.v
theories/Proofs/ConfigFacts.v
theories/Proofs/EntryPointsFacts.v
theories/Proofs/PlatformFacts.v
theories/Proofs/WheelPaths.v
theories/Proofs/WheelSpread.v
theories/Spec/DirectURLSpec.v
theories/Spec/RecordSpec.v
theories/Spec/LayerWheelSpec.v
theories/Spec/WheelExamples.v
theories/Spec/WheelAnySpec.v
theories/Spec/LandsSpec.v
theories/Proofs/DirectURLFacts.v
theories/Proofs/WheelFacts.v
theories/Proofs/WheelSame.v
theories/Proofs/WheelCases.v
theories/Proofs/WheelAny.v
theories/Proofs/WheelLands.v
theories/Proofs/RecordFacts.v
theories/Proofs/LayerWheelFacts.v
theories/Spec/RecordExamples.v
theories/Spec/RequestedSpec.v
theories/Spec/LayerDirSpec.v
theories/Spec/GoLayerSpec.v
theories/Proofs/RecordCases.v
theories/Props/P13_Wheels.v
theories/Props/P14_Records.v
theories/Model/Wrap.v
theories/Model/ImageConfig.v
theories/Model/Clock.v
theories/Model/GoBuild.v
theories/Spec/WrapSpec.v
theories/Spec/ImageConfigSpec.v
theories/Spec/ClockSpec.v
theories/Spec/GoBuildSpec.v
theories/Proofs/WrapFacts.v
theories/Proofs/ImageConfigFacts.v
theories/Proofs/ClockFacts.v
theories/Proofs/GoBuildFacts.v
theories/Props/P15_Commands.v
theories/Model/IndexClient.v
theories/Model/LookPath.v
theories/Spec/TripSpec.v
theories/Spec/MadeSpec.v
theories/Spec/IndexClientSpec.v
theories/Spec/EndsSpec.v
theories/Spec/LoopSpec.v
theories/Spec/LookPathSpec.v
theories/Proofs/VfsBack.v
theories/Proofs/VfsTrips.v
theories/Proofs/LookPathFacts.v
theories/Props/P16_LookPath.v
theories/Model/Inspect.v
theories/Model/GetWheel.v
theories/Spec/InspectSpec.v
theories/Spec/GetWheelSpec.v
theories/Proofs/InspectFacts.v
theories/Spec/PlatFileSpec.v
theories/Proofs/PlatFileFacts.v
theories/Proofs/GetWheelFacts.v
theories/Props/P17_Inspect.v
theories/Props/P18_GetWheel.v
theories/Model/PyCompile.v
theories/Model/Args.v
theories/Spec/PyCompileSpec.v
theories/Proofs/PyCompileFacts.v
theories/Proofs/CompilerFacts.v
theories/Proofs/ArgsFacts.v
theories/Props/P19_Compile.v
theories/Model/Docker.v
theories/Model/LayerFile.v
theories/Spec/DockerSpec.v
theories/Spec/LayerFileSpec.v
theories/Proofs/DockerFacts.v
theories/Proofs/LayerFileFacts.v
theories/Props/P20_Host.v
theories/Model/Generate.v
theories/Model/Cli.v
theories/Spec/GenerateSpec.v
theories/Spec/CliSpec.v
theories/Proofs/GenerateFacts.v
theories/Proofs/CliFacts.v
theories/Props/P21_Cli.v
theories/Props/P22_Testing.v
theories/Model/Help.v
theories/Model/AssertLayers.v
theories/Spec/HelpSpec.v
theories/Spec/AssertLayersSpec.v
theories/Proofs/HelpFacts.v
theories/Proofs/AssertLayersFacts.v
theories/Props/P23_Help.v
theories/Props/P24_Made.v
theories/Props/P25_Client.v
theories/Props/P26_Ends.v
theories/Spec/OverlaySpec.v
theories/Proofs/OverlayFacts.v
theories/Proofs/OverlayMade.v
theories/Proofs/OverlayThrough.v
theories/Proofs/VfsThrough.v
theories/Proofs/NamesThrough.v
theories/Spec/DanglingSpec.v
theories/Proofs/VfsDangling.v
theories/Spec/SquashOpenSpec.v
theories/Proofs/SquashOpen.v
theories/Proofs/SquashSame.v
theories/Proofs/LookThrough.v
theories/Proofs/OverlayCases.v
theories/Proofs/RequestedFacts.v
theories/Proofs/LayerDirFacts.v
theories/Proofs/GoLayerFacts.v
theories/Model/ImageBuild.v
theories/Model/DocGen.v
theories/Model/Unicode.v
theories/Spec/ImageBuildSpec.v
theories/Spec/DocGenSpec.v
theories/Spec/UnicodeSpec.v
theories/Proofs/ImageBuildFacts.v
theories/Proofs/DocGenFacts.v
theories/Proofs/UnicodeFacts.v
theories/Proofs/UnicodeBlanks.v
theories/Proofs/UnicodeExact.v
theories/Proofs/KindFacts.v
theories/Props/P27_Overlay.v
theories/Props/P28_More.v
theories/Props/P29_Commands.v
theories/Props/P30_Docs.v
theories/Props/P31_Unicode.v
theories/Props/P32_Inner.v
theories/Props/P33_AnyWheel.v
theories/Spec/PyConfigSpec.v
theories/Spec/PyEntrySpec.v
theories/Spec/PyNameSpec.v
theories/Spec/AdmitSpec.v
theories/Proofs/PyConfigFacts.v
theories/Proofs/PyEntryFacts.v
theories/Proofs/PyNameFacts.v
theories/Proofs/AdmitFacts.v
theories/Props/P34_PyConfig.v
theories/Props/P35_PyEntry.v
theories/Props/P36_PyName.v
theories/Props/P37_Admits.v
theories/Props/P38_SquashedImage.v
theories/Tests/RepoTests.v
theories/Tests/PythonTests.v
