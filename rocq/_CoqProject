-Q theories Verif
theories/AuthSpec.v
theories/BackProofs.v
theories/BackSpec.v
theories/Base.v
theories/BaseFacts.v
theories/CallCases.v
theories/CallProofs.v
theories/CallProofs2.v
theories/CallProofs3.v
theories/CallProofs4.v
theories/CallProofs5.v
theories/CallSpec.v
theories/Calls.v
theories/ChunkProofs.v
theories/Cli.v
theories/CliCreds.v
theories/CliErrors.v
theories/CliProofs.v
theories/CliProofs2.v
theories/CliProofs3.v
theories/CliProofs4.v
theories/CliSpec.v
theories/CmdProofs.v
theories/CmdSpec.v
theories/Commands.v
theories/ContractProofs.v
theories/ContractProofs2.v
theories/ContractProofs3.v
theories/ContractProofs4.v
theories/ContractProofs5.v
theories/ContractSpec.v
theories/ConvProofs.v
theories/CredSpec.v
theories/Crypto.v
theories/Errors.v
theories/FileCrypto.v
theories/FileProofs.v
theories/FileProofs2.v
theories/FileSpec.v
theories/FlowCases.v
theories/FlowProofs.v
theories/FlowProofs2.v
theories/FlowProofs3.v
theories/FlowProofs4.v
theories/FlowSpec.v
theories/ForceCases.v
theories/ForceProofs.v
theories/ForceProofs2.v
theories/ForceSpec.v
theories/FreshProofs.v
theories/FreshSpec.v
theories/Fs.v
theories/FsCases.v
theories/FsCases2.v
theories/FsProofs.v
theories/FsProofs10.v
theories/FsProofs11.v
theories/FsProofs12.v
theories/FsProofs13.v
theories/FsProofs14.v
theories/FsProofs15.v
theories/FsProofs16.v
theories/FsProofs17.v
theories/FsProofs2.v
theories/FsProofs3.v
theories/FsProofs4.v
theories/FsProofs5.v
theories/FsProofs6.v
theories/FsProofs7.v
theories/FsProofs8.v
theories/FsProofs9.v
theories/FsSpec.v
theories/Getopts.v
theories/Gf256.v
theories/GfProofs.v
theories/GfSpec.v
theories/HeaderCrypto.v
theories/HeaderCryptoProofs.v
theories/HeaderCryptoProofs2.v
theories/HeaderCryptoProofs3.v
theories/HeaderCryptoProofs4.v
theories/HeaderIo.v
theories/HeaderIoProofs.v
theories/HeaderIoSpec.v
theories/HeaderPanics.v
theories/HideProofs.v
theories/HideProofs2.v
theories/HideProofs3.v
theories/HideSpec.v
theories/HistoryProofs.v
theories/HistorySpec.v
theories/HopeProofs.v
theories/HopeSpec.v
theories/Io.v
theories/KeyFiles.v
theories/KeyProofs.v
theories/Layout.v
theories/LayoutProofs.v
theories/LayoutProofs2.v
theories/LayoutSpec.v
theories/LibSodium.v
theories/LossSpec.v
theories/LoudProofs.v
theories/LoudProofs2.v
theories/LoudProofs3.v
theories/LoudSpec.v
theories/MemoryProofs.v
theories/MemorySpec.v
theories/Meter.v
theories/MeterProofs.v
theories/MeterProofs2.v
theories/Modes.v
theories/ModesProofs.v
theories/MuteProofs.v
theories/OptProofs.v
theories/OptSpec.v
theories/PairCases.v
theories/PairProofs.v
theories/PairSpec.v
theories/ParProofs.v
theories/ParSpec.v
theories/PathProofs.v
theories/PathSpec.v
theories/Paths.v
theories/PipeProofs.v
theories/PipeProofs2.v
theories/PipeProofs3.v
theories/PipeSpec.v
theories/Pipeline.v
theories/PipelineExample.v
theories/PipelineProofs.v
theories/PipelineProofs2.v
theories/PipelineProofs3.v
theories/PipelineProofs4.v
theories/PipelineSpec.v
theories/PolyProofs.v
theories/Process.v
theories/ProcessProofs.v
theories/ProcessSpec.v
theories/Program.v
theories/Progress.v
theories/ProgressProofs.v
theories/ProgressSpec.v
theories/PropBack.v
theories/PropCalls.v
theories/PropCli.v
theories/PropCommandLine.v
theories/PropContract.v
theories/PropFile.v
theories/PropFlow.v
theories/PropForce.v
theories/PropFresh.v
theories/PropFs.v
theories/PropFs2.v
theories/PropHeader.v
theories/PropHeaderIo.v
theories/PropHelp.v
theories/PropHide.v
theories/PropHistory.v
theories/PropHope.v
theories/PropKeys.v
theories/PropLayout.v
theories/PropLoss.v
theories/PropLoud.v
theories/PropMemory.v
theories/PropMeter.v
theories/PropModes.v
theories/PropNames.v
theories/PropOptions.v
theories/PropPair.v
theories/PropPar.v
theories/PropPipe.v
theories/PropPipeline.v
theories/PropProcess.v
theories/PropProgress.v
theories/PropProto.v
theories/PropQuiet.v
theories/PropRandom.v
theories/PropRefuse.v
theories/PropSafe.v
theories/PropSame.v
theories/PropSections.v
theories/PropShamir.v
theories/PropShare.v
theories/PropShow.v
theories/PropSize.v
theories/PropSplit.v
theories/PropStream.v
theories/PropTerminal.v
theories/PropTrunc.v
theories/PropUi.v
theories/PropWork.v
theories/PropWrites.v
theories/Proto.v
theories/ProtoProofs.v
theories/ProtoSpec.v
theories/QuietProofs.v
theories/QuietProofs2.v
theories/QuietProofs3.v
theories/QuietSpec.v
theories/ReadProofs.v
theories/RefuseProofs.v
theories/Rng.v
theories/SafeProofs.v
theories/SafeSpec.v
theories/SameProofs.v
theories/SameSpec.v
theories/SectionProofs.v
theories/SectionProofs2.v
theories/SectionProofs3.v
theories/SectionSpec.v
theories/SettingsProofs.v
theories/Shamir.v
theories/ShamirProofs.v
theories/ShamirSecrecy.v
theories/ShamirSpec.v
theories/ShareProofs.v
theories/ShareSpec.v
theories/ShowProofs.v
theories/ShowProofs2.v
theories/ShowSpec.v
theories/SizeProofs.v
theories/SizeSpec.v
theories/SplitProofs.v
theories/StreamCrypto.v
theories/StreamProofs.v
theories/StreamProofs2.v
theories/StreamProofs3.v
theories/StreamSpec.v
theories/Terminal.v
theories/TerminalProofs.v
theories/TerminalSpec.v
theories/Text.v
theories/TextProofs.v
theories/TextProofs2.v
theories/ToyCrypto.v
theories/TruncProofs.v
theories/TruncSpec.v
theories/Ui.v
theories/UiProofs.v
theories/UiProofs2.v
theories/UiSpec.v
theories/Util.v
theories/UtilProofs.v
theories/UtilProofs2.v
theories/UtilSpec.v
theories/WireProofs.v
theories/WireSpec.v
theories/Work.v
theories/WorkProofs.v
theories/WorkProofs2.v
theories/WorkProofs3.v
theories/WorkSpec.v
theories/Writes.v
