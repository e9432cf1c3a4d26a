-Q theories Verif
theories/Py.v
theories/Heap.v
theories/Spec.v
theories/Hierarchy.v
theories/Elements.v
theories/Factory.v
theories/History.v
theories/PDict.v
theories/PPath.v
theories/PExec.v
theories/PBfs.v
theories/PWF.v
theories/PAdd.v
theories/PMono.v
theories/PStep.v
theories/PRemove.v
theories/PReach.v
theories/PPrim.v
theories/PHist.v
theories/QHier.v
theories/QHier2.v
theories/Props1.v
theories/ExBase.v
theories/Ex1.v
theories/QHier3.v
theories/QHier4.v
theories/QHier5.v
theories/QHier6.v
theories/SpecFac.v
theories/QFac.v
theories/QFac2.v
theories/Props2.v
theories/Ex2.v
theories/Traverse.v
theories/SpecTrav.v
theories/QTrav.v
theories/QTrav2.v
theories/QTrav3.v
theories/Props3.v
theories/Ex3.v
theories/Props4.v
theories/Ex4.v
theories/Homomorphism.v
theories/SpecHom.v
theories/QHom.v
theories/Props5.v
theories/Ex5.v
theories/HTraverse.v
theories/Tensor.v
theories/SpecTensor.v
theories/QTensor.v
theories/QTensor2.v
theories/QTensor3.v
theories/Props6.v
theories/Ex6.v
theories/Search.v
theories/SpecSearch.v
theories/QSearch.v
theories/QSearch2.v
theories/Props7.v
theories/Ex7.v
theories/Factorization.v
theories/SpecFact.v
theories/QFact.v
theories/QFact2.v
theories/QFact3.v
theories/QFact4.v
theories/Props8.v
theories/Ex8.v
theories/QueryEngine.v
theories/SpecQuery.v
theories/QQuery.v
theories/QQuery2.v
theories/Props9.v
theories/Ex9.v
theories/Encode.v
theories/SpecEnc.v
theories/QEnc.v
theories/QEnc2.v
theories/QEnc3.v
theories/QEnc4.v
theories/QEnc5.v
theories/QEnc6.v
theories/Props10.v
theories/Ex10.v
theories/SpecVal.v
theories/Mapping.v
theories/QVal.v
theories/QVal2.v
theories/Props11.v
theories/Ex11.v
theories/Phys.v
theories/SpecPhys.v
theories/QPhys.v
theories/SpecPhys2.v
theories/QPhys2.v
theories/SpecKin.v
theories/QKin.v
theories/Sdf.v
theories/SpecSdf.v
theories/QSdf.v
theories/QSdf2.v
theories/Props12.v
theories/Ex12.v
theories/CogniLang.v
theories/SpecCogni.v
theories/QCog.v
theories/QCog2.v
theories/QCog3.v
theories/QCog4.v
theories/QCog5.v
theories/QCog6.v
theories/QCog7.v
theories/QCog8.v
theories/QCog9.v
theories/Props13.v
theories/Ex13.v
theories/SpecHTrav.v
theories/QHTrav.v
theories/Props14.v
theories/Ex14.v
theories/Convert.v
theories/QConv.v
theories/QConv2.v
theories/QConv3.v
theories/SpecConv.v
theories/QConv4.v
theories/QConv5.v
theories/QConv6.v
theories/QConv7.v
theories/QConv8.v
theories/QConv9.v
theories/Props15.v
theories/Ex15.v
theories/QConv10.v
theories/QNew.v
theories/QStamp.v
theories/QConv11.v
theories/QConv12.v
theories/QConv13.v
theories/Props16.v
theories/Ex16.v
theories/QGo.v
theories/QGo2.v
theories/SpecScope.v
theories/QGo3.v
theories/QGo4.v
theories/QGo5.v
theories/QGo6.v
theories/Props17.v
theories/Ex17.v
theories/Samples.v
theories/SpecSample.v
theories/QSample.v
theories/QSample2.v
theories/QSample3.v
theories/Props18.v
theories/Ex18.v
theories/SpecExport.v
theories/QExp.v
theories/QExp2.v
theories/QExp3.v
theories/QExp4.v
theories/QExp5.v
theories/QExp6.v
theories/Props19.v
theories/Ex19.v
theories/SpecFrame.v
theories/QFrame.v
theories/QFrame2.v
theories/Props20.v
theories/Ex20.v
theories/Print.v
theories/SpecPrint.v
theories/QPrint.v
theories/Bulk.v
theories/SpecBulk.v
theories/QBulk.v
theories/Props21.v
theories/Ex21.v
theories/QTuple.v
theories/QTuple2.v
theories/Apps.v
theories/SpecApps.v
theories/QApps.v
theories/Props22.v
theories/Ex22.v
theories/QQuery3.v
theories/QQuery4.v
theories/Props23.v
theories/Ex23.v
theories/SpecCoo.v
theories/QCoo.v
theories/QCoo2.v
theories/QCoo3.v
theories/QCoo4.v
theories/Props24.v
theories/Ex24.v
theories/SpecDepth.v
theories/QDepth.v
theories/QPoison.v
theories/Props25.v
theories/Ex25.v
theories/SpecBound.v
theories/QBound.v
theories/QBound2.v
theories/QBound3.v
theories/QBound4.v
theories/Props26.v
theories/Ex26.v
theories/SpecDecode.v
theories/QDec.v
theories/QDec2.v
theories/Props27.v
theories/Ex27.v
theories/SpecRelay.v
theories/QRelay.v
theories/SpecCtx.v
theories/QCtx.v
theories/Props28.v
theories/Ex28.v
theories/SpecRecv.v
theories/QRecv.v
theories/Props29.v
theories/Ex29.v
theories/Reuse.v
theories/SpecReuse.v
theories/QReuse.v
theories/Props30.v
theories/Ex30.v
theories/SpecLap.v
theories/QLap.v
theories/Props31.v
theories/Ex31.v
theories/Entropy.v
theories/SpecEntropy.v
theories/QEntropy.v
theories/Props32.v
theories/Ex32.v
theories/SpecIso.v
theories/QIso.v
theories/Props33.v
theories/Ex33.v
theories/SpecWeight.v
theories/QWeight.v
theories/Props34.v
theories/Ex34.v
theories/SpecPad.v
theories/QPad.v
theories/Props35.v
theories/Ex35.v
theories/SpecHand.v
theories/QHand.v
theories/Props36.v
theories/Ex36.v
theories/SpecFail.v
theories/QFail.v
theories/QFail2.v
theories/Props37.v
theories/Ex37.v
theories/SpecFact2.v
theories/QFact5.v
theories/Props38.v
theories/Ex38.v
theories/SpecFact3.v
theories/QFact6.v
theories/Props39.v
theories/Ex39.v
