-Q theories Verif

theories/PyStr.v
theories/PyStrFacts.v
theories/PyBase.v
theories/PyBaseFacts.v
theories/CfgModel.v
theories/TreeSpec.v
theories/TreeProofs.v
theories/TreePost.v
theories/TreeRel.v
theories/TreeWorld.v
theories/BraceSpec.v
theories/TreeBanner.v
theories/TreeFull.v
theories/CommitProofs.v
theories/WorldSpec.v
theories/CommitMain.v
theories/TreeMain.v
theories/FamilyProofs.v
theories/PTree.v
theories/SearchModel.v
theories/SearchSpec.v
theories/SearchProofs.v
theories/PSearch.v
theories/MutModel.v
theories/MutSpec.v
theories/MutProofs.v
theories/MutProofs2.v
theories/PMut.v
theories/PwModel.v
theories/PPw.v
theories/IpModel.v
theories/IpSpec.v
theories/IpFacts.v
theories/PIp.v
theories/PIpText.v
theories/RangeModel.v
theories/RangeSpec.v
theories/RangeFacts.v
theories/PRange.v
theories/TrunkModel.v
theories/TrunkSpec.v
theories/TrunkFacts.v
theories/PTrunk.v
theories/L4Model.v
theories/L4Spec.v
theories/PL4.v
theories/IntfModel.v
theories/IntfSpec.v
theories/IntfFacts.v
theories/PIntf.v
theories/JunosModel.v
theories/JunosSpec.v
theories/JunosFacts.v
theories/PJunos.v
theories/DiffModel.v
theories/DiffSpec.v
theories/DiffFacts.v
theories/DiffFacts2.v
theories/PDiff.v
theories/PDiff2.v
theories/FileModel.v
theories/FileSpec.v
theories/FileFacts.v
theories/FilePad.v
theories/PFile.v
theories/IRangeModel.v
theories/IRangeSpec.v
theories/IRangeFacts.v
theories/PIRange.v
theories/PyRe.v
theories/PyReFacts.v
theories/PyReTmpl.v
theories/IosSpec.v
theories/PyReSent.v
theories/IosModel.v
theories/IosFacts.v
theories/PIos.v
theories/PIosTree.v
theories/PMore.v
theories/PyReLit.v
theories/SyncSpec.v
theories/SyncModel.v
theories/SyncFacts.v
theories/PSync.v
theories/RouteSpec.v
theories/RouteModel.v
theories/RouteFacts.v
theories/PRoute.v
theories/FactorySpec.v
theories/FactoryModel.v
theories/FactoryFacts.v
theories/PFactory.v
theories/PyReLazy.v
theories/NameSpec.v
theories/NameModel.v
theories/NameFacts.v
theories/PName.v
theories/AaaModel.v
theories/AaaSpec.v
theories/AaaFacts.v
theories/PAaa.v
theories/HsrpModel.v
theories/HsrpSpec.v
theories/PyReFree.v
theories/PHsrp.v
theories/PStandby.v
theories/AsaModel.v
theories/AsaSpec.v
theories/AsaSvcSpec.v
theories/PAsa.v
theories/PAsaSvc.v
theories/ListModel.v
theories/ListSpec.v
theories/PList.v
theories/IntfReModel.v
theories/IntfRe.v
theories/PIntfRe.v
theories/BannerReModel.v
theories/PBannerRe.v
theories/JunosReModel.v
theories/PJunosRe.v
theories/IpReModel.v
theories/PIpRe.v
theories/PyReGets.v
theories/XrModel.v
theories/XrSpec.v
theories/PXr.v
theories/Ip6TextModel.v
theories/Ip6TextSpec.v
theories/Ip6Facts.v
theories/Ip6Show.v
theories/Ip6Re.v
theories/PIp6Text.v
theories/PortModel.v
theories/PyReWords.v
theories/PortSpec.v
theories/PPort.v
theories/AttrModel.v
theories/AttrSpec.v
theories/PAttr.v
theories/PyReTok.v
theories/AclModel.v
theories/AclSpec.v
theories/AclFacts.v
theories/AclWords.v
theories/AclDict.v
theories/PAcl.v
theories/PAclIcmp.v
theories/AsaIntfSpec.v
theories/AsaIntfModel.v
theories/PAsaIntf.v
theories/PAsaLine.v
theories/CollapseModel.v
theories/CollapseSpec.v
theories/PCollapse.v
theories/IpFactoryModel.v
theories/IpFactorySpec.v
theories/PIpFactory.v
theories/NxosSpec.v
theories/NxosModel.v
theories/PNxos.v
theories/PVpc.v
theories/NxosTrunkModel.v
theories/NxosTrunkSpec.v
theories/NxosTrunkFacts.v
theories/PNxosTrunk.v
theories/NxosRouteModel.v
theories/NxosRouteSpec.v
theories/PNxosRoute.v
theories/FactoryAllModel.v
theories/FactoryAllSpec.v
theories/PFactoryAll.v
theories/HeaderModel.v
theories/HeaderSpec.v
theories/PHeader.v
theories/RangeHistModel.v
theories/RangeHistSpec.v
theories/PRangeHist.v
theories/IntfSetModel.v
theories/IntfSetSpec.v
theories/PIntfSet.v
theories/NxosAaaModel.v
theories/NxosAaaSpec.v
theories/PNxosAaa.v
theories/ReObjModel.v
theories/ReObjSpec.v
theories/PReObj.v
theories/SpecArgModel.v
theories/SpecArgSpec.v
theories/PSpecArg.v
theories/HierModel.v
theories/HierSpec.v
theories/PHier.v
theories/CarrierModel.v
theories/PCarrier.v
theories/XrIntfModel.v
theories/PXrIntf.v
