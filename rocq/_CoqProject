-Q theories Verif
theories/Base.v
theories/LArea.v
theories/LArea2.v
theories/LArea3.v
theories/LBase.v
theories/LBezier.v
theories/LBezier2.v
theories/LBezier3.v
theories/LBezier4.v
theories/LBezier5.v
theories/LBlossom.v
theories/LBmp.v
theories/LBmp2.v
theories/LBmp3.v
theories/LBmp4.v
theories/LBmp5.v
theories/LBoolean.v
theories/LBoxF64.v
theories/LCamera.v
theories/LCameraD.v
theories/LCleanD.v
theories/LCleanG.v
theories/LCleanW.v
theories/LClosed.v
theories/LClosedF.v
theories/LContD.v
theories/LCurveF64.v
theories/LDegrees.v
theories/LDegrees2.v
theories/LElev.v
theories/LElev2.v
theories/LErr1.v
theories/LErr10.v
theories/LErr11.v
theories/LErr2.v
theories/LErr3.v
theories/LErr4.v
theories/LErr5.v
theories/LErr6.v
theories/LErr7.v
theories/LErr8.v
theories/LErr9.v
theories/LErrD.v
theories/LErrEx.v
theories/LErrF.v
theories/LErrM.v
theories/LErrR.v
theories/LErrR2.v
theories/LErrT.v
theories/LEvalT.v
theories/LF64.v
theories/LF64Arith.v
theories/LF64Ord.v
theories/LFactory.v
theories/LFormat.v
theories/LFormat2.v
theories/LFormat3.v
theories/LFormat4.v
theories/LFormat5.v
theories/LFormat6.v
theories/LGeo1.v
theories/LGeo2.v
theories/LGeo3.v
theories/LGeo4.v
theories/LGeo5.v
theories/LGeoEx.v
theories/LGeom.v
theories/LGeom2.v
theories/LGeom3.v
theories/LGeomEx.v
theories/LGrid.v
theories/LHeap.v
theories/LImage.v
theories/LImage2.v
theories/LImage3.v
theories/LKernel.v
theories/LKnotF64.v
theories/LLine.v
theories/LLine2.v
theories/LMandel.v
theories/LMeasure.v
theories/LMeasure2.v
theories/LMeasureEx.v
theories/LMerge.v
theories/LMergeD.v
theories/LMergeG.v
theories/LMesh.v
theories/LMeshFac.v
theories/LMeshFac2.v
theories/LMeshFac3.v
theories/LMeshFac4.v
theories/LMeshFac5.v
theories/LMeshFac6.v
theories/LMeshFac7.v
theories/LMoved.v
theories/LNear.v
theories/LNetMesh.v
theories/LNew.v
theories/LNew2.v
theories/LNurbs.v
theories/LNurbs2.v
theories/LNurbs3.v
theories/LNurbs4.v
theories/LNurbs5.v
theories/LNurbs6.v
theories/LNurbsEx.v
theories/LObj.v
theories/LObj2.v
theories/LObj3.v
theories/LObjIn.v
theories/LPatch.v
theories/LPatch2.v
theories/LPatch3.v
theories/LPatch4.v
theories/LPi.v
theories/LPlaneD.v
theories/LPlaneD2.v
theories/LPlaneD3.v
theories/LPlaneD4.v
theories/LPlaneD5.v
theories/LPn.v
theories/LPolyF64.v
theories/LRaster.v
theories/LRaster2.v
theories/LRaster3.v
theories/LRaster4.v
theories/LReach.v
theories/LRender.v
theories/LRender2.v
theories/LRender3.v
theories/LRender4.v
theories/LRender5.v
theories/LRender6.v
theories/LRevolve.v
theories/LRound.v
theories/LRound2.v
theories/LRound3.v
theories/LRound4.v
theories/LRound5.v
theories/LSolidMesh.v
theories/LSplit.v
theories/LSplitTri.v
theories/LStep.v
theories/LStep2.v
theories/LStep3.v
theories/LStep4.v
theories/LStep5.v
theories/LStl.v
theories/LStl2.v
theories/LSurf.v
theories/LSurf2.v
theories/LSurf3.v
theories/LSurfClear.v
theories/LSurfF64.v
theories/LSurfFinal.v
theories/LSurfMesh.v
theories/LTess.v
theories/LText.v
theories/LTransform.v
theories/LUniformF64.v
theories/LUtil.v
theories/LUtilEx.v
theories/MBezier.v
theories/MBmp.v
theories/MF64.v
theories/MFormat.v
theories/MGeometry.v
theories/MHeap.v
theories/MImage.v
theories/MKernel.v
theories/MKernelRun.v
theories/MMeasure.v
theories/MMesh.v
theories/MMeshFactory.v
theories/MMeshRun.v
theories/MNurbs.v
theories/MNurbsFactory.v
theories/MNurbsRace.v
theories/MNurbsSurface.v
theories/MObj.v
theories/MRender.v
theories/MStep.v
theories/MStl.v
theories/MStream.v
theories/MText.v
theories/MTransform.v
theories/MUtil.v
theories/Num.v
theories/PArea.v
theories/PBezier.v
theories/PCamera.v
theories/PCameraD.v
theories/PClean.v
theories/PClosed.v
theories/PContD.v
theories/PDegrees.v
theories/PElev.v
theories/PErr.v
theories/PErrD.v
theories/PErrF.v
theories/PErrM.v
theories/PErrN.v
theories/PErrR.v
theories/PErrT.v
theories/PF64.v
theories/PFormat.v
theories/PGeodesic.v
theories/PGeometry.v
theories/PGeometry2.v
theories/PImage.v
theories/PKernel.v
theories/PLine.v
theories/PMandel.v
theories/PMeasure.v
theories/PMerge.v
theories/PMesh.v
theories/PMeshFac.v
theories/PMoved.v
theories/PNear.v
theories/PNew.v
theories/PNew2.v
theories/PNurbs.v
theories/PNurbsSurface.v
theories/PObj.v
theories/PObjIn.v
theories/PPatch.v
theories/PPlaneD.v
theories/PPn.v
theories/PRaster.v
theories/PRender.v
theories/PRound.v
theories/PStep.v
theories/PStepDoc.v
theories/PStl.v
theories/PTransform.v
theories/PUtil.v
theories/SArea.v
theories/SBezier.v
theories/SCamera.v
theories/SCameraD.v
theories/SClean.v
theories/SContD.v
theories/SDegrees.v
theories/SErr.v
theories/SErrD.v
theories/SErrM.v
theories/SErrN.v
theories/SErrT.v
theories/SF64.v
theories/SFormat.v
theories/SGeom.v
theories/SGeom2.v
theories/SHeap.v
theories/SImage.v
theories/SKernel.v
theories/SLine.v
theories/SMandel.v
theories/SMeasure.v
theories/SMerge.v
theories/SMesh.v
theories/SMeshFac.v
theories/SNetMesh.v
theories/SNew.v
theories/SNurbs.v
theories/SObj.v
theories/SObjIn.v
theories/SPatch.v
theories/SPlaneD.v
theories/SPn.v
theories/SRaster.v
theories/SReach.v
theories/SRender.v
theories/SRound.v
theories/SSolid.v
theories/SStep.v
theories/SStepDoc.v
theories/SStl.v
theories/SSurface.v
theories/SUtil.v
