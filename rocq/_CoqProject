-Q theories Verif
theories/PyBase.v
theories/PyBaseFacts.v
theories/ModelUtil.v
theories/SpecUtil.v
theories/ProofUtil.v
theories/PropertiesUtil.v
theories/ModelValidate.v
theories/SpecValidate.v
theories/ProofValidate.v
theories/ProofValidate2.v
theories/ProofValidate3.v
theories/PropertiesValidate.v
theories/ModelMarkup.v
theories/SpecMarkup.v
theories/ProofMarkup.v
theories/ProofMarkup2.v
theories/ProofMarkup3.v
theories/ProofMarkup4.v
theories/ProofMarkup5.v
theories/PropertiesMarkup.v
theories/SpecMarkup2.v
theories/ProofMarkup6.v
theories/PropertiesMarkup2.v
theories/ModelScalar.v
theories/SpecScalar.v
theories/ProofScalar.v
theories/ProofScalar2.v
theories/ProofScalar3.v
theories/PropertiesScalar.v
theories/PyList.v
theories/PyListFacts.v
theories/SpecPyList.v
theories/ProofPyList.v
theories/ModelSeq.v
theories/SpecSeq.v
theories/ProofSeq.v
theories/ProofSeq2.v
theories/ProofSeq3.v
theories/PropertiesSeq.v
theories/ModelMap.v
theories/SpecMap.v
theories/ProofMap.v
theories/ProofMap2.v
theories/ProofMap3.v
theories/ProofMap4.v
theories/ProofMap5.v
theories/ProofMap6.v
theories/ProofMap7.v
theories/ProofMap8.v
theories/ProofMap9.v
theories/PropertiesMap.v
theories/ModelProps.v
theories/SpecProps.v
theories/ProofProps.v
theories/ProofProps2.v
theories/ProofProps3.v
theories/PropertiesProps.v
theories/ModelDsl.v
theories/SpecDsl.v
theories/ProofDsl.v
theories/ProofDsl2.v
theories/ProofDsl3.v
theories/ProofDsl4.v
theories/ProofDsl5.v
theories/ProofDsl6.v
theories/ProofDsl7.v
theories/ProofDsl8.v
theories/PropertiesDsl.v
theories/ProofDsl9.v
theories/PropertiesDsl2.v
theories/ModelPaths.v
theories/SpecPaths.v
theories/ProofPaths.v
theories/ProofPaths2.v
theories/ProofPaths3.v
theories/ProofPaths4.v
theories/ProofPaths5.v
theories/ProofPaths6.v
theories/ProofPaths7.v
theories/ProofPaths8.v
theories/PropertiesPaths.v
theories/ModelFlat.v
theories/SpecFlat.v
theories/ProofFlat.v
theories/ProofFlat2.v
theories/ProofFlat3.v
theories/ProofFlat4.v
theories/ProofFlat5.v
theories/ProofFlat6.v
theories/ProofFlat7.v
theories/ProofFlat8.v
theories/ProofFlat9.v
theories/ProofFlat10.v
theories/PropertiesFlat.v
theories/ModelCompound.v
theories/SpecCompound.v
theories/ProofCompound.v
theories/ProofCompound2.v
theories/ProofCompound3.v
theories/ProofCompound4.v
theories/ProofCompound5.v
theories/ProofCompound6.v
theories/PropertiesCompound.v
theories/ModelMessage.v
theories/ModelValidators.v
theories/ModelNetwork.v
theories/SpecMessage.v
theories/ProofMessage.v
theories/SpecValidators.v
theories/ProofValidators.v
theories/ProofValidators2.v
theories/SpecNetwork.v
theories/ProofNetwork.v
theories/ProofNetwork2.v
theories/PropertiesMessage.v
theories/PropertiesValidators.v
theories/PropertiesNetwork.v
theories/ModelNest.v
theories/SpecNest.v
theories/ProofNest.v
theories/ProofNest2.v
theories/ProofNest3.v
theories/ProofNest4.v
theories/ProofNest5.v
theories/ProofNest6.v
theories/SpecText.v
theories/ProofText.v
theories/PropertiesNest.v
theories/ModelRef.v
theories/SpecRef.v
theories/ProofRef.v
theories/PropertiesRef.v
theories/ModelDesc.v
theories/SpecDesc.v
theories/ProofDesc.v
theories/PropertiesDesc.v
theories/ModelGenshi.v
theories/SpecGenshi.v
theories/ProofGenshi.v
theories/ProofGenshi2.v
theories/ProofGenshi3.v
theories/ProofGenshi4.v
theories/ProofGenshi5.v
theories/ProofGenshi6.v
theories/ProofGenshi7.v
theories/ProofGenshi8.v
theories/PropertiesGenshi.v
theories/ModelNumber.v
theories/SpecNumber.v
theories/ProofNumber.v
theories/ProofNumber2.v
theories/ProofNumber3.v
theories/ProofNumber4.v
theories/ProofNumber5.v
theories/PropertiesNumber.v
theories/ModelRaise.v
theories/SpecRaise.v
theories/ProofRaise.v
theories/PropertiesRaise.v
theories/ModelSelf.v
theories/SpecSelf.v
theories/ProofSelf.v
theories/ProofSelf2.v
theories/PropertiesSelf.v
theories/ModelAssign.v
theories/SpecAssign.v
theories/ProofAssign.v
theories/ProofAssign2.v
theories/PropertiesAssign.v
theories/TestsScalar.v
theories/TestsSeq.v
theories/TestsMap.v
theories/TestsPaths.v
theories/TestsValidate.v
theories/TestsProps.v
theories/TestsDsl.v
theories/ModelCustom.v
theories/SpecCustom.v
theories/ProofCustom.v
theories/ProofCustom2.v
theories/PropertiesCustom.v
theories/TestsCompound.v
theories/TestsRef.v
theories/TestsMarkup.v
theories/TestsGenshi.v
theories/TestsValidators.v
theories/TestsForms.v
theories/ModelTag.v
theories/SpecTag.v
theories/ProofTag.v
theories/ProofTag2.v
theories/ProofTag3.v
theories/PropertiesTag.v
theories/TestsTag.v
theories/SpecForm.v
theories/ProofForm.v
theories/ProofForm2.v
theories/PropertiesForm.v
theories/ModelAttach.v
theories/SpecAttach.v
theories/ProofAttach.v
theories/PropertiesAttach.v
theories/ModelCache.v
theories/SpecCache.v
theories/ProofCache.v
theories/ProofCache2.v
theories/PropertiesCache.v
theories/SpecAgree.v
theories/ProofAgree.v
theories/ProofAgree2.v
theories/ProofAgree3.v
theories/PropertiesAgree.v
theories/SpecRegex.v
theories/ProofRegex.v
theories/ProofRegex2.v
theories/ProofRegex3.v
theories/ProofRegex4.v
theories/ProofRegex5.v
theories/ProofRegex6.v
theories/PropertiesRegex.v
theories/ModelReport.v
theories/SpecReport.v
theories/ProofReport.v
theories/PropertiesReport.v
theories/ModelLink.v
theories/ProofLink.v
theories/PropertiesLink.v
theories/SpecPost.v
theories/ProofPost.v
theories/PropertiesPost.v
theories/SpecAgain.v
theories/ProofAgain.v
theories/ProofAgain2.v
theories/PropertiesAgain.v
theories/SpecTrip.v
theories/ProofTrip.v
theories/PropertiesTrip.v
theories/ModelRepr.v
theories/SpecRepr.v
theories/ProofRepr.v
theories/ProofRepr2.v
theories/PropertiesRepr.v
theories/SpecSteps.v
theories/ProofSteps.v
theories/PropertiesSteps.v
theories/ModelCheck.v
theories/SpecCheck.v
theories/ProofCheck.v
theories/ProofCheck2.v
theories/ProofCheck3.v
theories/PropertiesCheck.v
theories/TestsDocs.v
theories/SpecTwin.v
theories/ProofTwin.v
theories/ProofTwin2.v
theories/PropertiesTwin.v
theories/ModelEqual.v
theories/SpecEqual.v
theories/ProofEqual.v
theories/PropertiesEqual.v
theories/ModelBounds.v
theories/SpecBounds.v
theories/ProofBounds.v
theories/PropertiesBounds.v
