-Q theories Verif
theories/Base.v
theories/BaseProofs.v
theories/SpecParams.v
theories/SpecField.v
theories/ScalarModel.v
theories/ScalarProofs.v
theories/ScalarProofs2.v
theories/NumTheory.v
theories/HexNum.v
theories/HexP.v
theories/Pock.v
theories/Primes.v
theories/FieldTheory.v
theories/FieldU32Model.v
theories/Wp.v
theories/FieldU32Mul.v
theories/FieldU32Square.v
theories/FieldU32Proofs.v
theories/FieldBackend.v
theories/FieldFiatModel.v
theories/Backends.v
theories/SpecCurve.v
theories/SpecEncoding.v
theories/BackendLaws.v
theories/FieldModel.v
theories/FieldProofs.v
theories/FieldExpr.v
theories/FieldMain.v
theories/PropsField.v
theories/EdwardsTheory.v
theories/CurveTheory.v
theories/PhiHat.v
theories/EdSigns.v
theories/AbGroup.v
theories/Order.v
theories/GroupOrder.v
theories/TwistedModel.v
theories/ScalarMulModel.v
theories/EdwardsModel.v
theories/PointSpec.v
theories/TwistedProofs.v
theories/ScalarMulProofs.v
theories/EdwardsProofs.v
theories/EdwardsExpr.v
theories/EdwardsRun.v
theories/ScalarMain.v
theories/EdwardsMain.v
theories/TwistedMain.v
theories/EdwardsCases.v
theories/EdwardsFacts.v
theories/PropsEdwards.v
theories/SpecMontgomery.v
theories/MontgomeryModel.v
theories/MontTheory.v
theories/Ladder.v
theories/LadderMont.v
theories/MontCurves.v
theories/MontgomeryProofs.v
theories/MontgomeryMain.v
theories/MontgomeryFacts.v
theories/PropsMontgomery.v
theories/SpecTwist.v
theories/Bls.v
theories/TwistPrime.v
theories/EdStructure.v
theories/MontOrder.v
theories/SpecDecaf.v
theories/DecafModel.v
theories/DecafTheory.v
theories/DecafGroup.v
theories/DecafProofs.v
theories/DecafExpr.v
theories/DecafRun.v
theories/DecafMain.v
theories/DecafFacts.v
theories/PropsDecaf.v
theories/RfcExpr.v
theories/DecafRfc.v
theories/RfcVectors.v
theories/RfcMain.v
theories/DecafNum.v
theories/RfcFacts.v
theories/PropsRfc.v
theories/ApiExpr.v
theories/SpecApi.v
theories/ApiRun.v
theories/ApiCases.v
theories/ApiMeaning.v
theories/PropsApi.v
theories/ValueMain.v
theories/PropsScalar.v
theories/ScalarIndex.v
theories/ScalarIndexFacts.v
theories/AffineFacts.v
theories/EncodingFacts.v
theories/PropsTypes.v
theories/SpecRfc7748.v
theories/Rfc7748Main.v
theories/SpecRfc8032.v
theories/Rfc8032Main.v
theories/RfcCases.v
theories/Signature.v
theories/SignatureMain.v
theories/SignatureCases.v
theories/PropsStandards.v
theories/Steps.v
theories/StepSubtle.v
theories/StepU32.v
theories/StepFiat.v
theories/StepScalar.v
theories/StepCurve.v
theories/StepPlain.v
theories/StepRelWords.v
theories/StepRelFiat.v
theories/StepRelCurve.v
theories/TraceSpec.v
theories/TraceSpec64.v
theories/TraceLogic.v
theories/TraceLogicWords.v
theories/TraceScalar.v
theories/TraceFacts.v
theories/TraceMain.v
theories/TraceWords.v
theories/TraceFiat.v
theories/TraceCases.v
theories/TraceFiatCases.v
theories/PropsTrace.v
theories/SubtleModel.v
theories/SubtleMain.v
theories/PropsSubtle.v
theories/CostSpec.v
theories/CostMain.v
theories/CostFiat.v
theories/CostCases.v
theories/PropsCost.v
theories/SpecExponent.v
theories/ExponentMain.v
theories/PropsExponent.v
theories/TwistMain.v
theories/PropsTwist.v
theories/RepoTests.v
theories/RepoVectors.v
theories/RepoTestsMain.v
theories/PropsTests.v
theories/OpModel.v
theories/SpecOps.v
theories/OpMain.v
theories/PropsOps.v
theories/DebugModel.v
theories/SpecDebug.v
theories/DebugMain.v
theories/PropsDebug.v
theories/FiatCode.v
theories/FiatMain.v
theories/PropsFiat.v
theories/DocsField.v
theories/DocsCurve.v
theories/DocsMain.v
theories/DocsCost.v
theories/DocsCases.v
theories/PropsDocs.v
theories/WeighLogic.v
theories/WeighLogic64.v
theories/WeighMain.v
theories/WeighScalar.v
theories/WeighInst.v
theories/WeighCases.v
theories/PropsWeigh.v
theories/ReleaseSpec.v
theories/ReleaseLogic.v
theories/ReleaseMain.v
theories/PropsRelease.v
theories/AssertSpec.v
theories/AssertMain.v
theories/PropsAssert.v
theories/ReleaseStepsSpec.v
theories/ReleaseSteps.v
theories/PropsReleaseSteps.v
theories/MapTheory.v
theories/MapMain.v
theories/PropsMaps.v
theories/HashModel.v
theories/EqSpec.v
theories/EqMain.v
theories/PropsEq.v
theories/FeatureModel.v
theories/SpecFeatures.v
theories/FeatureMain.v
theories/PropsFeatures.v
theories/WidthSpec.v
theories/WidthMain.v
theories/PropsWidth.v
theories/SpecSignature.v
theories/SignatureLog.v
theories/PropsSignature.v
theories/RoomSpec.v
theories/RoomMul.v
theories/RoomSquare.v
theories/RoomOne.v
theories/RoomMain.v
theories/PropsRoom.v
theories/SpecCount.v
theories/CountStrings.v
theories/CountTotals.v
theories/PropsCount.v
theories/CurveChecks.v
theories/PropsOnCurve.v
theories/WidthScalarSpec.v
theories/WidthScalar.v
theories/PropsWidthScalar.v
theories/WidthReduce.v
theories/PropsWidthReduce.v
theories/SpecFibre.v
theories/FibreTheory.v
theories/FibreMain.v
theories/PropsFibre.v
theories/FibreGroup.v
theories/PropsFibreGroup.v
theories/KeyCount.v
theories/PropsKeyCount.v
theories/SpecChain.v
theories/ChainMain.v
theories/PropsChain.v
theories/SpecVariants.v
theories/SignatureVariants.v
theories/VariantMain.v
theories/SignatureBatch.v
theories/SpecBatch.v
theories/BatchMain.v
theories/SpecProtocols.v
theories/ProtocolMain.v
theories/SpecShares.v
theories/PolyTheory.v
theories/SharesMain.v
theories/SpecExponentEd.v
theories/ExponentEd.v
theories/SpecGeneric.v
theories/SpecLine.v
theories/SpecBridge.v
theories/GenericMain.v
theories/LineMain.v
theories/BridgeMain.v
theories/PropsVariants.v
theories/PropsBatch.v
theories/PropsProtocols.v
theories/PropsShares.v
theories/PropsExponentEd.v
theories/PropsGeneric.v
theories/PropsLine.v
theories/PropsBridge.v
