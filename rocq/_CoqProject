-Q theories Verif
theories/Prime.v
theories/Fr.v
theories/Poly.v
theories/GoBase.v
theories/PolyModel.v
theories/PolyProofs.v
theories/GroupModel.v
theories/Biv.v
theories/KzgModel.v
theories/KzgProofs.v
theories/PropertiesPoly.v
theories/Bytes.v
theories/CodecModel.v
theories/CodecProofs.v
theories/FramingModel.v
theories/FramingProofs.v
theories/DispatchModel.v
theories/DispatchSpec.v
theories/DispatchProofs.v
theories/SendModel.v
theories/SendProofs.v
theories/PropertiesNet.v
theories/PropertiesFlood.v
theories/PartyModel.v
theories/VssModel.v
theories/VssProofs.v
theories/BivProofs.v
theories/PartySpec.v
theories/VssProofs2.v
theories/PropertiesVss.v
theories/ReduceModel.v
theories/ReduceProofs.v
theories/PropertiesReduce.v
theories/ProacModel.v
theories/ProacProofs.v
theories/ProacRun.v
theories/ProacSig.v
theories/ProacRecover.v
theories/ProacDist.v
theories/TsigModel.v
theories/TsigProofs.v
theories/PropertiesTsig.v
theories/KeyFileModel.v
theories/PropertiesKeys.v
theories/ProacLinks.v
theories/PropertiesProac.v
theories/PropertiesRefresh.v
theories/PropertiesRuns.v
theories/PropertiesDist.v
theories/PropertiesEpoch.v
theories/PropertiesSharp.v
theories/PropertiesMobile.v
theories/PropertiesOne.v
theories/PropertiesAgree.v
theories/RbcModel.v
theories/RbcProofs.v
theories/RbcGood.v
theories/PropertiesRbc.v
theories/RbcByz.v
theories/PropertiesByz.v
theories/PropertiesInteg.v
theories/MvbaModel.v
theories/MvbaProofs.v
theories/IdModel.v
theories/IdProofs.v
theories/PropertiesMvba.v
theories/PropertiesCoin.v
theories/PropertiesEarly.v
theories/PropertiesForced.v
theories/PropertiesUnlock.v
theories/PropertiesTrace.v
theories/PropertiesShard.v
theories/VoteProofs.v
theories/PropertiesVotes.v
theories/AgreementProofs.v
theories/PropertiesAgreement.v
theories/FftModel.v
theories/FftProofs.v
theories/FftProofs2.v
theories/FftG1.v
theories/ReverseModel.v
theories/ReverseProofs.v
theories/PropertiesFft.v
theories/PropertiesEval.v
theories/SampleModel.v
theories/SampleProofs.v
theories/ZeroProofs.v
theories/ZeroProofs2.v
theories/RecoverProofs.v
theories/LegacyModel.v
theories/LegacyProofs.v
theories/PropertiesSample.v
theories/PropertiesLeaves.v
theories/PropertiesLegacy.v
theories/FkModel.v
theories/FkProofs.v
theories/FkProofs2.v
theories/FkProofs3.v
theories/PropertiesFk.v
theories/ProtoModel.v
theories/ProtoProofs.v
theories/PropertiesProto.v
theories/PropertiesNet2.v
theories/PropertiesCrash.v
theories/PropertiesCrash2.v
theories/TextModel.v
theories/TextProofs.v
theories/PropertiesText.v
theories/BackendModel.v
theories/BackendProofs.v
theories/PropertiesBackend.v
theories/PropertiesEncode.v
theories/PropertiesTight.v
theories/WireSpec.v
theories/WireProofs.v
theories/PropertiesWire.v
theories/MvbaNet.v
theories/MvbaLive.v
theories/MvbaQuiet.v
theories/MvbaSafe.v
theories/PropertiesLive.v
theories/PropertiesBlock.v
theories/PropertiesEchoFlood.v
theories/RaceModel.v
theories/RaceProofs.v
theories/RaceRuns.v
theories/PropertiesRace.v
theories/ReshareModel.v
theories/ReshareProofs.v
theories/PropertiesReshare.v
theories/DecodeModel.v
theories/DecodeProofs.v
theories/PropertiesDecode.v
theories/PropertiesAdopt.v
theories/StageModel.v
theories/StageProofs.v
theories/StageNet.v
theories/PropertiesStage.v
theories/PropertiesAgrees.v
theories/StageSplit.v
theories/PropertiesSplit.v
theories/DistNetModel.v
theories/DistNetProofs.v
theories/PropertiesFinish.v
theories/HandNetModel.v
theories/HandNetProofs.v
theories/PropertiesHand.v
theories/DownModel.v
theories/DownProofs.v
theories/PropertiesDown.v
theories/RefreshModel.v
theories/RefreshProofs.v
theories/PropertiesTorn.v
theories/StageBadProofs.v
theories/StageBadNet.v
theories/PropertiesStageBad.v
theories/DistBadNet.v
theories/PropertiesFinishBad.v
theories/ForgedProofs.v
theories/PropertiesForged.v
theories/DeclSpec.v
theories/PropertiesDeclared.v
theories/PropertiesReduceExact.v
theories/StartModel.v
theories/StartSpec.v
theories/StartProofs.v
theories/PropertiesStart.v
theories/PropertiesIds.v
theories/PropertiesLayout.v
theories/ZeroProofs3.v
theories/PropertiesZeroMax.v
theories/PropertiesDist2.v
theories/PropertiesSplitDeal.v
theories/PropertiesForgeRbc.v
theories/PropertiesTwice.v
theories/SliceModel.v
theories/PropertiesSlice.v
theories/ScalarTextModel.v
theories/PropertiesScalarText.v
theories/RbcSendModel.v
theories/PropertiesBcast.v
theories/PropertiesNil.v
theories/SpbModel.v
theories/PropertiesSpb.v
