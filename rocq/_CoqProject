-Q theories Verif
theories/Base.v
theories/Types.v
theories/ResolverModel.v
theories/ResolverProofs.v
theories/ResolverRun.v
theories/ResolverSpec.v
theories/ResolverThms.v
theories/ResolverSteps.v
theories/ResolverTerm.v
theories/ResolverSafe.v
theories/ResolverBarrier.v
theories/ResolverExamples.v
theories/ResolverFacts.v
theories/PropsResolver.v
theories/Kdl.v
theories/LockfileModel.v
theories/LockfileSpec.v
theories/LockfileProofs.v
theories/LockfileGraph.v
theories/LockfileFacts.v
theories/PropsLockfile.v
theories/ScriptsModel.v
theories/ScriptsProofs.v
theories/ScriptsFacts.v
theories/PropsScripts.v
theories/VersionModel.v
theories/VersionSpec.v
theories/VersionProofs.v
theories/PropsVersion.v
theories/PathLookup.v
theories/PropsPaths.v
theories/Fs.v
theories/HoistedModel.v
theories/FsRun.v
theories/HoistedSpec.v
theories/HoistedProofs.v
theories/HoistedThms.v
theories/HoistedExamples.v
theories/PropsHoisted.v
theories/StdPath.v
theories/BinModel.v
theories/BinProofs.v
theories/PropsBin.v
theories/CliModel.v
theories/CliSpec.v
theories/CliProofs.v
theories/LogProofs.v
theories/PropsCli.v
theories/JsonModel.v
theories/JsonSpec.v
theories/JsonProofs.v
theories/JsonPrint.v
theories/SpecModel.v
theories/SpecSpec.v
theories/SpecProofs.v
theories/SpecRound.v
theories/SpecKind.v
theories/FetchModel.v
theories/FetchProofs.v
theories/PropsSpec.v
theories/CmdModel.v
theories/CmdProofs.v
theories/PropsJson.v
theories/ScriptEnv.v
theories/ScriptEnvProofs.v
theories/LockSource.v
theories/NpmProofs.v
theories/PropsEnv.v
theories/AuthModel.v
theories/AuthSpec.v
theories/AuthProofs.v
theories/AccountProofs.v
theories/AccountNext.v
theories/PropsAuth.v
theories/TarModel.v
theories/TarStream.v
theories/TarProofs.v
theories/TarConfine.v
theories/TarContents.v
theories/TarWarm.v
theories/TarTotal.v
theories/TarPlain.v
theories/TarSpec.v
theories/TarThms.v
theories/TarWarmTotal.v
theories/TarCache.v
theories/TarShare.v
theories/TarReplay.v
theories/PropsTar.v
theories/IsolatedModel.v
theories/IsolatedSpec.v
theories/IsolatedProofs.v
theories/FsPlain.v
theories/IsolatedThms.v
theories/PropsIsolated.v
theories/IsolatedCollide.v
theories/PropsCollide.v
theories/ResolverDecl.v
theories/ResolverNames.v
theories/LockfileReplay.v
theories/LockfileReplayRun.v
theories/LockfileView.v
theories/PropsReplay.v
theories/PropsNames.v
theories/BinLinkModel.v
theories/BinLinkProofs.v
theories/BinLinkSafe.v
theories/BinLinkHoisted.v
theories/PropsBinLink.v
theories/JsonRead.v
theories/JsonReadProofs.v
theories/JsonReadThms.v
theories/PropsJsonRead.v
theories/PropsSemver.v
theories/PropsEntry.v
theories/FsPad.v
theories/IsoMkdirModel.v
theories/IsoMkdirProofs.v
theories/IsoMkdirThms.v
theories/PropsIsoMkdir.v
theories/PropsConfig.v
theories/SpecDep.v
theories/PropsRequested.v
theories/FlagModel.v
theories/FlagProofs.v
theories/PropsFlags.v
theories/PropsTight.v
theories/ManifestRead.v
theories/ManifestProofs.v
theories/PropsManifest.v
theories/LoginModel.v
theories/PropsLogin.v
theories/IsoBinModel.v
theories/IsoBinProofs.v
theories/IsoBinThms.v
theories/IsoMkdirRun.v
theories/IsoBinAgain.v
theories/PropsIsoBin.v
theories/PropsKey.v
theories/LockfileText.v
theories/FlatSame.v
theories/PropsText.v
theories/HoistedAgain.v
theories/PropsAgain.v
theories/ResolverCycles.v
theories/ResolverLoop.v
theories/PropsCycles.v
theories/ResolverSeen.v
theories/PropsSeen.v
theories/PackumentModel.v
theories/PackumentSpec.v
theories/PackumentProofs.v
theories/PropsPackument.v
theories/ResolverTop.v
theories/PropsTop.v
theories/NetModel.v
theories/PropsNet.v
theories/PropsUnpinned.v
theories/ViewModel.v
theories/ViewSpec.v
theories/ViewProofs.v
theories/ViewEntry.v
theories/ViewShow.v
theories/ViewThms.v
theories/ViewGood.v
theories/PropsView.v
theories/NodeSpec.v
theories/NodeProofs.v
theories/PropsNode.v
theories/IsoAgainSpec.v
theories/IsoAgain.v
theories/PropsIsoAgain.v
theories/PropsKeyExact.v
theories/TarHistory.v
theories/IntegrityModel.v
theories/PropsIntegrity.v
theories/ScriptRun.v
theories/ScriptRunProofs.v
theories/Utf8Spec.v
theories/ScriptRunInv.v
theories/PropsScriptRun.v
theories/PropsDirBin.v
theories/GitModel.v
theories/PropsGit.v
theories/PropsRebuildRuns.v
