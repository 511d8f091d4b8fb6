-Q theories Verif
theories/Prelude.v
theories/CharCurves.v
theories/SpecCurves.v
theories/CharCurvesProofs.v
theories/Prop_CharCurves.v
theories/CharCurveSet.v
theories/SpecCurveSet.v
theories/CharCurveSetProofs.v
theories/Prop_CharCurveSet.v
theories/Eos.v
theories/SpecEos.v
theories/EosProofs.v
theories/Prop_Eos.v
theories/Geom.v
theories/SpecGeom.v
theories/GeomProofs.v
theories/Prop_Geom.v
theories/TimeInt.v
theories/SpecTimeInt.v
theories/TimeIntProofs.v
theories/Prop_TimeInt.v
theories/Lifecycle.v
theories/SpecLifecycle.v
theories/LifecycleProofs.v
theories/Prop_Lifecycle.v
theories/Registry.v
theories/SpecRegistry.v
theories/RegistryProofs.v
theories/Prop_Registry.v
theories/Arrays.v
theories/Slots.v
theories/SpecSlots.v
theories/SlotsProofs.v
theories/Prop_Slots.v
theories/Tensor.v
theories/SpecTensor.v
theories/TensorProofs.v
theories/Prop_Tensor.v
theories/Options.v
theories/SpecOptions.v
theories/OptionsProofs.v
theories/Prop_Options.v
theories/Regression.v
theories/SpecRegression.v
theories/RegressionProofs.v
theories/Prop_Regression.v
theories/Region.v
theories/SpecRegion.v
theories/RegionProofs.v
theories/Prop_Region.v
theories/Fields.v
theories/FieldsProofs.v
theories/Prop_Fields.v
theories/Memory.v
theories/MemoryProofs.v
theories/Prop_Memory.v
theories/Fvtpf.v
theories/SpecFvtpf.v
theories/FvtpfProofs.v
theories/FvtpfDerivProofs.v
theories/FvtpfSumProofs.v
theories/FvtpfTotalProofs.v
theories/FvtpfAssemblyProofs.v
theories/FvtpfExtraProofs.v
theories/FvtpfExamples.v
theories/Prop_Fvtpf.v
theories/UGrid.v
theories/UGridLoops.v
theories/SpecUGrid.v
theories/UGridProofs.v
theories/UGridNumProofs.v
theories/UGridLocalProofs.v
theories/UGridVertexProofs.v
theories/UGridAllProofs.v
theories/UGridExtraProofs.v
theories/Prop_UGrid.v
theories/Scatter.v
theories/ScatterProofs.v
theories/Prop_Scatter.v
theories/Mpfao.v
theories/SpecMpfao.v
theories/MpfaoProofs.v
theories/MpfaoExamples.v
theories/Prop_MpfaoTrans.v
theories/MpfaoTs.v
theories/SpecMpfaoTs.v
theories/MpfaoTsProofs.v
theories/MpfaoJacProofs.v
theories/MpfaoDeriveProofs.v
theories/MpfaoBalanceProofs.v
theories/MpfaoTsExamples.v
theories/Prop_MpfaoTs.v
theories/Diagnostics.v
theories/SpecDiagnostics.v
theories/DiagnosticsProofs.v
theories/Prop_Diagnostics.v
theories/Transport.v
theories/SpecTransport.v
theories/TransportProofs.v
theories/TransportExamples.v
theories/TransportBounds.v
theories/Prop_Transport.v
theories/State.v
theories/SpecState.v
theories/StateProofs.v
theories/Prop_State.v
theories/Boundary.v
theories/SpecBoundary.v
theories/BoundaryProofs.v
theories/Prop_Boundary.v
theories/Hdiv.v
theories/SpecHdiv.v
theories/HdivProofs.v
theories/Prop_Hdiv.v
theories/Wy.v
theories/SpecWy.v
theories/WyProofs.v
theories/Prop_Wy.v
theories/WyState.v
theories/WyStateProofs.v
theories/Prop_WyState.v
theories/Mesh.v
theories/SpecMesh.v
theories/MeshProofs.v
theories/MeshConnProofs.v
theories/MeshFaceProofs.v
theories/MeshTableProofs.v
theories/MeshExample.v
theories/Prop_Mesh.v
theories/Subcell.v
theories/SpecSubcell.v
theories/SubcellProofs.v
theories/SubcellStoreProofs.v
theories/SubcellMoreProofs.v
theories/SubcellExamples.v
theories/Prop_Subcell.v
theories/Numbering.v
theories/SpecNumbering.v
theories/NumberingProofs.v
theories/NumberingSubProofs.v
theories/NumberingExample.v
theories/Prop_Numbering.v
theories/Traversal.v
theories/SpecTraversal.v
theories/TraversalOrderProofs.v
theories/TraversalProofs.v
theories/TraversalMainProofs.v
theories/TraversalExample.v
theories/Prop_Traversal.v
theories/Levels.v
theories/SpecLevels.v
theories/LevelsProofs.v
theories/LevelsVertexProofs.v
theories/LevelsExample.v
theories/LevelsStep.v
theories/Prop_Levels.v
theories/FeMap.v
theories/SpecFeMap.v
theories/FeMapProofs.v
theories/FeMapUnknownProofs.v
theories/FeMapWyProofs.v
theories/FeMapExample.v
theories/Prop_FeMap.v
theories/Bdm.v
theories/SpecBdm.v
theories/BdmProofs.v
theories/BdmLocalProofs.v
theories/BdmInverseProofs.v
theories/BdmGlobalProofs.v
theories/SpecBdmMesh.v
theories/BdmMeshProofs.v
theories/BdmFluxProofs.v
theories/BdmSolveProofs.v
theories/BdmPatchProofs.v
theories/BdmExactProofs.v
theories/BdmRunProofs.v
theories/BdmExample.v
theories/BdmQuadratureProofs.v
theories/Prop_Bdm.v
theories/Transmit.v
theories/Steady.v
theories/SpecTransmit.v
theories/TransmitProofs.v
theories/TransmitExamples.v
theories/Prop_Transmit.v
theories/SpecSteady.v
theories/SteadyProofs.v
theories/SteadyExamples.v
theories/Prop_Steady.v
theories/Velocity.v
theories/SpecVelocity.v
theories/VelocityProofs.v
theories/VelocityExamples.v
theories/Prop_Velocity.v
theories/ThJac.v
theories/SpecThJac.v
theories/ThJacProofs.v
theories/ThJacExamples.v
theories/Prop_ThJac.v
theories/Owners.v
theories/SpecOwners.v
theories/OwnersProofs.v
theories/Prop_Owners.v
theories/FaceGeo.v
theories/SpecFaceGeo.v
theories/FaceGeoProofs.v
theories/Prop_FaceGeo.v
theories/CellGeo.v
theories/SpecCellGeo.v
theories/CellGeoProofs.v
theories/Prop_CellGeo.v
theories/MeshFaces.v
theories/SpecMeshFaces.v
theories/MeshFacesTables.v
theories/MeshFacesSetup.v
theories/MeshFacesPairs.v
theories/MeshFacesRenumber.v
theories/MeshFacesProofs.v
theories/MeshFacesExamples.v
theories/Prop_MeshFaces.v
theories/VertexCells.v
theories/SpecVertexCells.v
theories/VertexCellsProofs.v
theories/Prop_VertexCells.v
theories/FaceAttr.v
theories/SpecFaceAttr.v
theories/FaceAttrProofs.v
theories/FaceAttrExamples.v
theories/Prop_FaceAttr.v
theories/NaturalIds.v
theories/SpecNaturalIds.v
theories/NaturalIdsProofs.v
theories/Prop_NaturalIds.v
theories/Gravity.v
theories/SpecGravity.v
theories/GravityProofs.v
theories/GravityMoreProofs.v
theories/GravityLayers.v
theories/GravityExamples.v
theories/Prop_Gravity.v
theories/Closures.v
theories/SpecClosures.v
theories/ClosuresProofs.v
theories/ClosuresExamples.v
theories/Prop_Closures.v
theories/Demo.v
theories/SpecDemo.v
theories/DemoProofs.v
theories/DemoFields.v
theories/DemoFields2.v
theories/DemoRest.v
theories/DemoMesh.v
theories/Prop_Demo.v
theories/Output.v
theories/SpecOutput.v
theories/OutputProofs.v
theories/OutputWrite.v
theories/OutputFile.v
theories/OutputHead.v
theories/Prop_Output.v
theories/Driver.v
theories/SpecDriver.v
theories/DriverProofs.v
theories/Prop_Driver.v
theories/ReadMat.v
theories/SpecReadMat.v
theories/ReadMatProofs.v
theories/Prop_ReadMat.v
theories/RegOut.v
theories/SpecRegOut.v
theories/RegOutProofs.v
theories/Prop_RegOut.v
theories/F90.v
theories/SpecF90.v
theories/F90Proofs.v
theories/Prop_F90.v
theories/WyGlobal.v
theories/SpecWyGlobal.v
theories/WyGlobalProofs.v
theories/WyGlobalExamples.v
theories/Prop_WyGlobal.v
theories/Release.v
theories/SpecRelease.v
theories/ReleaseProofs.v
theories/Prop_Release.v
theories/ThJacTemp.v
theories/GoldTest.v
theories/SpecGoldTest.v
theories/GoldTestProofs.v
theories/GoldText.v
theories/GoldTextProofs.v
theories/Prop_GoldTest.v
theories/GravityDiagonal.v
theories/VelocityError.v
theories/SpecVelocityError.v
theories/VelocityErrorProofs.v
theories/VelocityZero.v
theories/Prop_VelocityError.v
theories/MeshFile.v
theories/SpecMeshFile.v
theories/MeshFileProofs.v
theories/MeshGraphProofs.v
theories/Prop_MeshFile.v
theories/FaceCentre.v
theories/SpecFaceCentre.v
theories/FaceCentreProofs.v
theories/Prop_FaceCentre.v
theories/FaceCentreMesh.v
theories/SubcellAccess.v
theories/SpecSubcellAccess.v
theories/SubcellAccessProofs.v
theories/Prop_SubcellAccess.v
theories/TransSize.v
theories/SpecTransSize.v
theories/TransSizeProofs.v
theories/TransSizeExamples.v
theories/Prop_TransSize.v
theories/BoundaryLabel.v
theories/SpecBoundaryLabel.v
theories/BoundaryLabelProofs.v
theories/Prop_BoundaryLabel.v
