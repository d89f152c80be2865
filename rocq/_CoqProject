-Q theories Verif
theories/Res.v
theories/Values.v
theories/Spec.v
theories/Mem.v
theories/Lists.v
theories/CsLib.v
theories/Laws.v
theories/MCore.v
theories/PCore.v
theories/PropCore.v
theories/MElementwise.v
theories/PElementwise.v
theories/PElementwise2.v
theories/MConvert.v
theories/PConvert.v
theories/PConvert2.v
theories/PConvert3.v
theories/PTrans.v
theories/FloatFacts.v
theories/FloatPos.v
theories/MScalar.v
theories/NdLib.v
theories/PScalar.v
theories/MHash.v
theories/PHash.v
theories/Loops.v
theories/MNd.v
theories/MNd2.v
theories/PNd.v
theories/PNd2.v
theories/PNd3.v
theories/PNd4.v
theories/PNd5.v
theories/PropNd.v
theories/PropNd2.v
theories/MAcc.v
theories/PAcc.v
theories/MLinalg.v
theories/PLinalg.v
theories/PLinalg2.v
theories/PLinalg3.v
theories/MReduce.v
theories/MStat.v
theories/PReduce.v
theories/SpecReduce.v
theories/PGroup.v
theories/PStat.v
theories/PStat2.v
theories/PStat3.v
theories/Witness.v
theories/PropElementwise.v
theories/PropConvert.v
theories/PropTrans.v
theories/PropScalar.v
theories/PropHash.v
theories/PropLinalg.v
theories/PropStat.v
theories/MCum.v
theories/PCum.v
theories/SpecDiff.v
theories/PDiff.v
theories/PropCum.v
theories/PropDiff.v
theories/SpecPy.v
theories/MPy.v
theories/MObj.v
theories/MApi.v
theories/SpecApi.v
theories/PBroadcast.v
theories/PPy.v
theories/PPy2.v
theories/PropPy.v
theories/PropPy2.v
theories/PropDup.v
theories/PropLaws.v
theories/PropLaws2.v
theories/PropClosure.v
theories/PSafe.v
theories/PSafe2.v
theories/PSafe3.v
theories/PSafe4.v
theories/SpecObj.v
theories/PObj.v
theories/PropObj.v
theories/SpecDense.v
theories/PDense.v
theories/PDense2.v
theories/PDense3.v
theories/PDense4.v
theories/PDense6.v
theories/PDense5.v
theories/PropDense.v
theories/SpecCall.v
theories/SpecCall2.v
theories/PCall.v
theories/PCall2.v
theories/PCall3.v
theories/PCall4.v
theories/PCall5.v
theories/PropCall.v
theories/PropCall2.v
theories/PropCall3.v
theories/PropCall4.v
theories/PropCall5.v
theories/PropCall6.v
theories/PropCall7.v
theories/PropApi.v
theories/PropApi2.v
theories/MDtype.v
theories/MNative.v
theories/SpecNative.v
theories/PNative.v
theories/PNative2.v
theories/PNative3.v
theories/PropNative.v
theories/PropNative2.v
theories/PropNative3.v
theories/MThreads.v
theories/PThreads.v
theories/PropThreads.v
theories/SpecAccuracy.v
theories/FloatErr.v
theories/FloatDiv.v
theories/FloatRange.v
theories/FloatValid.v
theories/FloatSqrt.v
theories/PAccuracy.v
theories/PAccuracy2.v
theories/PAccuracy3.v
theories/PAccuracy4.v
theories/PAccuracy5.v
theories/PropAccuracy.v
theories/PropAccuracy2.v
theories/PropAccuracy3.v
theories/FloatFloor.v
theories/PAccuracy6.v
theories/PropAccuracy4.v
theories/PAccuracy7.v
theories/PropAccuracy5.v
theories/FloatOrd.v
theories/SpecInt.v
theories/PInt.v
theories/PInt2.v
theories/PInt3.v
theories/PInt4.v
theories/PropInt.v
theories/PNan.v
theories/PropNan.v
theories/PropFormat.v
theories/PropTranspose.v
theories/PropLaws3.v
theories/PropConsist.v
theories/PropConsist2.v
theories/PropTranspose2.v
theories/PropLinear.v
theories/PropLinear2.v
theories/SpecOrder.v
theories/PropOrder.v
theories/PropDtype.v
