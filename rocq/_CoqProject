-Q theories Verif
theories/Base/Loop.v
theories/Base/Int.v
theories/Base/Num.v
theories/Base/F64.v
theories/Base/F64Order.v
theories/Base/F32.v
theories/Base/Bytes.v
theories/Time/Model.v
theories/Time/Spec.v
theories/Time/Proofs.v
theories/Time/ModelRun.v
theories/Time/SpecRun.v
theories/Time/ProofsRun.v
theories/Time/Properties.v
theories/Isoline/Model.v
theories/Isoline/Spec.v
theories/Isoline/Proofs.v
theories/Isoline/ProofsGrid.v
theories/Isoline/ProofsBorder.v
theories/Isoline/ProofsLevels.v
theories/Isoline/Properties.v
theories/Isoline/ModelSteps.v
theories/Isoline/ProofsSteps.v
theories/Isoline/PropertiesSteps.v
theories/Isoline/PropertiesPressure.v
theories/Field/Model.v
theories/Field/Spec.v
theories/Field/Proofs.v
theories/Field/ProofsMore.v
theories/Field/Properties.v
theories/Eval/Model.v
theories/Eval/Spec.v
theories/Eval/Proofs.v
theories/Eval/Properties.v
theories/Matrix/Model.v
theories/Matrix/Spec.v
theories/Matrix/Proofs.v
theories/Matrix/Properties.v
theories/Tree/Model.v
theories/Tree/ModelRange.v
theories/Tree/Spec.v
theories/Tree/Proofs.v
theories/Tree/ProofsNum.v
theories/Tree/ProofsRange.v
theories/Tree/Properties.v
theories/Body/Model.v
theories/Body/Spec.v
theories/Body/ProofsGeom.v
theories/Body/ProofsBody.v
theories/Body/ProofsShape.v
theories/Body/ProofsContour.v
theories/Body/ProofsText.v
theories/Body/Properties.v
theories/Flow/Model.v
theories/Flow/Spec.v
theories/Flow/Proofs.v
theories/Flow/ProofsReal.v
theories/Flow/ProofsBalance.v
theories/Flow/ProofsHeat.v
theories/Flow/ProofsDefined.v
theories/Flow/Properties.v
theories/System/Model.v
theories/System/Spec.v
theories/System/Proofs.v
theories/System/ProofsCollision.v
theories/System/ProofsWrite.v
theories/System/ProofsPhysics.v
theories/System/ProofsSolve.v
theories/System/ProofsReuse.v
theories/System/ProofsOrder.v
theories/System/ProofsXi.v
theories/System/ProofsLaws.v
theories/System/ProofsWitness.v
theories/System/Properties.v
theories/System/SpecKelvin.v
theories/System/ProofsKelvin.v
theories/System/PropertiesKelvin.v
theories/System/SpecFrame.v
theories/System/ProofsFrame.v
theories/System/PropertiesFrame.v
theories/Map/SpecSimilar.v
theories/Map/ProofsSimilar.v
theories/Map/ProofsSimilarDiff.v
theories/Map/PropertiesSimilar.v
theories/System/ModelFlux.v
theories/System/SpecSimilar.v
theories/System/ProofsSimilar.v
theories/System/PropertiesSimilar.v
theories/Map/SpecTurn.v
theories/Map/ProofsTurn.v
theories/Map/ProofsTurnDiff.v
theories/Map/PropertiesTurn.v
theories/Map/SpecMirror.v
theories/Map/ProofsMirror.v
theories/Map/ProofsMirrorDiff.v
theories/Map/PropertiesMirror.v
theories/Map/PropertiesNumber.v
theories/Map/SpecMix.v
theories/Map/PropertiesMix.v
theories/Map/PropertiesRest.v
theories/System/SpecTurn.v
theories/System/ProofsTurn.v
theories/System/PropertiesTurn.v
theories/System/SpecNumber.v
theories/System/ProofsNumber.v
theories/System/PropertiesNumber.v
theories/System/SpecMix.v
theories/System/ProofsMix.v
theories/System/PropertiesMix.v
theories/System/SpecRest.v
theories/System/ProofsRest.v
theories/System/PropertiesRest.v
theories/Vortex/Model.v
theories/Vortex/Spec.v
theories/Vortex/Proofs.v
theories/Vortex/ProofsMerge.v
theories/Vortex/ProofsRadius.v
theories/Vortex/ProofsKernel.v
theories/Vortex/ProofsField.v
theories/Vortex/Properties.v
theories/Vortex/ModelFar.v
theories/Vortex/SpecFar.v
theories/Vortex/ProofsFar.v
theories/Vortex/PropertiesFar.v
theories/Log/Model.v
theories/Log/Spec.v
theories/Log/Proofs.v
theories/Log/ProofsHistory.v
theories/Log/Properties.v
theories/Forces/Model.v
theories/Forces/Spec.v
theories/Forces/Proofs.v
theories/Forces/Properties.v
theories/Store/Model.v
theories/Store/Spec.v
theories/Store/Proofs.v
theories/Store/ProofsLoad.v
theories/Store/ProofsSpace.v
theories/Store/ProofsOrder.v
theories/Store/ProofsName.v
theories/Store/Properties.v
theories/Store/SpecAny.v
theories/Store/PropertiesAny.v
theories/Store/PropertiesAgain.v
theories/Store/ModelHeat.v
theories/Store/SpecHeat.v
theories/Store/ProofsHeat.v
theories/Store/PropertiesHeat.v
theories/Store/ModelScript.v
theories/Store/PropertiesScript.v
theories/Store/PropertiesOpen.v
theories/Gen/Model.v
theories/Gen/Spec.v
theories/Gen/ProofsCurve.v
theories/Gen/ProofsTable.v
theories/Gen/ProofsShapes.v
theories/Gen/ProofsBodies.v
theories/Gen/ProofsEllipse.v
theories/Gen/Properties.v
theories/Gen/PropertiesShapes.v
theories/Gen/PropertiesWalls.v
theories/Gen/PropertiesEllipse.v
theories/Lua/Model.v
theories/Lua/Spec.v
theories/Lua/Proofs.v
theories/Lua/ProofsObjects.v
theories/Lua/Properties.v
theories/Lua/ModelMembers.v
theories/Lua/SpecMembers.v
theories/Lua/ProofsMembers.v
theories/Lua/PropertiesMembers.v
theories/Lua/ModelViews.v
theories/Lua/ProofsViews.v
theories/Lua/PropertiesViews.v
theories/Lua/ModelShape.v
theories/Lua/PropertiesShape.v
theories/Awk/Model.v
theories/Awk/Spec.v
theories/Awk/Proofs.v
theories/Awk/ProofsAmpl.v
theories/Awk/ProofsZeros.v
theories/Awk/Properties.v
theories/Base/NumNaN.v
theories/Xtract/Model.v
theories/Xtract/Spec.v
theories/Xtract/Proofs.v
theories/Xtract/Properties.v
theories/Print/Model.v
theories/Print/Spec.v
theories/Print/Proofs.v
theories/Print/Properties.v
theories/Print/PropertiesTable.v
theories/Print/ModelInfo.v
theories/Print/SpecInfo.v
theories/Print/ProofsInfo.v
theories/Print/PropertiesInfo.v
theories/Print/ModelFixed.v
theories/Print/ProofsFixed.v
theories/Print/PropertiesFixed.v
theories/Plot/ModelDims.v
theories/Plot/SpecDims.v
theories/Plot/ProofsDims.v
theories/Plot/PropertiesDims.v
theories/Plot/ModelScale.v
theories/Plot/ProofsScale.v
theories/Plot/PropertiesScale.v
theories/Plot/ModelData.v
theories/Plot/PropertiesData.v
theories/Plot/ModelHolders.v
theories/Plot/PropertiesHolders.v
theories/Plot/Model.v
theories/Plot/Spec.v
theories/Plot/Proofs.v
theories/Plot/ProofsExec.v
theories/Plot/ProofsScript.v
theories/Plot/Properties.v
theories/Map/Model.v
theories/Map/Spec.v
theories/Map/ProofsAngle.v
theories/Map/ProofsStream.v
theories/Map/ProofsFlow.v
theories/Map/ProofsVelocity.v
theories/Map/ProofsCut.v
theories/Map/ProofsCell.v
theories/Map/ProofsPressure.v
theories/Map/ProofsFill.v
theories/Map/ProofsExamples.v
theories/Map/Properties.v
theories/Map/ModelLinear.v
theories/Map/SpecLinear.v
theories/Map/ProofsLinear.v
theories/Map/PropertiesLinear.v
theories/Map/ModelPlace.v
theories/Map/SpecPlace.v
theories/Map/ProofsPlace.v
theories/Map/ProofsPlaceCore.v
theories/Map/PropertiesPlace.v
theories/Old/Model.v
theories/Old/Spec.v
theories/Old/Proofs.v
theories/Old/ProofsLoad.v
theories/Old/ProofsWrite.v
theories/Old/Properties.v
theories/Opt/Getopt.v
theories/Opt/Model.v
theories/Opt/Spec.v
theories/Opt/Proofs.v
theories/Opt/ProofsOrder.v
theories/Opt/Properties.v
theories/Opt/ModelMain.v
theories/Opt/SpecMain.v
theories/Opt/ProofsMain.v
theories/Opt/PropertiesMain.v
theories/Quick/Model.v
theories/Quick/Spec.v
theories/Quick/Proofs.v
theories/Quick/Properties.v
theories/Quick/ModelEncode.v
theories/Quick/PropertiesEncode.v
