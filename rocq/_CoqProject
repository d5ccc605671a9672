-Q theories Verif
theories/Base.v
theories/Num.v
theories/IoModel.v
theories/Spec.v
theories/NumFacts.v
theories/FieldFacts.v
theories/LineFacts.v
theories/TokenFacts.v
theories/RealFacts.v
theories/RecordFacts.v
theories/ParamFacts.v
theories/PutModel.v
theories/BuildFacts.v
theories/StreamFacts.v
theories/PdModel.v
theories/PdFacts.v
theories/GlobalModel.v
theories/DateFacts.v
theories/GlobalFacts.v
theories/GlobSpec.v
theories/GlobBack.v
theories/GlobRead.v
theories/EntModel.v
theories/EntModel2.v
theories/EntModel3.v
theories/EntSpec.v
theories/EntFacts.v
theories/EntProps.v
theories/EntProps2.v
theories/EntItem.v
theories/EntProps3.v
theories/EntNeg.v
theories/EntNeg2.v
theories/EntProps4.v
theories/EntProps5.v
theories/DeModel.v
theories/DeSpec.v
theories/DeFacts.v
theories/DeProps.v
theories/IoProps.v
theories/PdSpec.v
theories/PdProps.v
theories/HeaderModel.v
theories/HeaderFacts.v
theories/CacheModel.v
theories/CacheFacts.v
theories/GeomModel.v
theories/PayloadModel.v
theories/UnitModel.v
theories/UnitSpec.v
theories/UnitFacts.v
theories/UnitProps.v
theories/UnitProps2.v
theories/FileModel.v
theories/LayoutFacts.v
theories/FileSpec.v
theories/FileFacts.v
theories/TailFacts.v
theories/PathModel.v
theories/PathSpec.v
theories/PathFacts.v
theories/GraphModel.v
theories/PlanSpec.v
theories/GraphSpec.v
theories/GraphFacts.v
theories/GraphOps.v
theories/GraphEdge.v
theories/GraphDel.v
theories/GraphProps.v
theories/GraphRead.v
theories/GraphProps2.v
theories/GraphEffect.v
theories/GraphCull.v
theories/GraphCheck.v
theories/GraphMore.v
theories/AssocModel.v
theories/AssocSpec.v
theories/AssocFacts.v
theories/AssocRun.v
theories/AssocPlan.v
theories/AssocAll.v
theories/AssocProps.v
theories/AssocCheck.v
theories/HandleModel.v
theories/HandleSpec.v
theories/HandleFacts.v
theories/HandleOps.v
theories/HandleStep.v
theories/HandleRun.v
theories/HandleAll.v
theories/HandleProps.v
theories/HandleCheck.v
theories/NurbsModel.v
theories/NurbsSpec.v
theories/NurbsNeg.v
theories/NurbsProps.v
theories/NurbsProps2.v
theories/NurbsPlane.v
theories/RoundLines.v
theories/RoundSpec.v
theories/RoundEnt.v
theories/RoundFile.v
theories/RoundBad.v
theories/RoundRes.v
theories/AcceptSpec.v
theories/AcceptFacts.v
theories/AcceptProps.v
theories/AcceptCull.v
theories/AcceptMore.v
theories/PropIo.v
theories/PropGlobal.v
theories/PropEnt.v
theories/PropDe.v
theories/PropApi.v
theories/PropUnit.v
theories/PropFile.v
theories/PropPath.v
theories/PropGraph.v
theories/PropHandle.v
theories/PropNurbs.v
theories/PropRound.v
theories/PropAssoc.v
theories/PropAccept.v
theories/JoinModel.v
theories/JoinSpec.v
theories/JoinFacts.v
theories/JoinProps.v
theories/PropJoin.v
theories/ExportModel.v
theories/ExportSpec.v
theories/ExportFacts.v
theories/ExportProps.v
theories/ExportProps2.v
theories/ExportProps3.v
theories/PropExport.v
theories/SegModel.v
theories/SegTrig.v
theories/SegSpec.v
theories/SegFacts.v
theories/SegBox.v
theories/SegSplit.v
theories/SegSplitArc.v
theories/SegProps.v
theories/PropSeg.v
theories/CutModel.v
theories/CutSpec.v
theories/CutFacts.v
theories/CutCircle.v
theories/CutArc.v
theories/CutLine.v
theories/CutArcLine.v
theories/CutCases.v
theories/CutTouch.v
theories/PropCut.v
theories/OutModel.v
theories/OutSpec.v
theories/OutFacts.v
theories/OutBox.v
theories/OutArea.v
theories/OutDraw.v
theories/OutInside.v
theories/OutCases.v
theories/PropOut.v
theories/OutPoly.v
theories/OutCut.v
theories/OutDisc.v
theories/OutOps.v
theories/OutLost.v
theories/PropOp.v
theories/PcbModel.v
theories/PcbSpec.v
theories/PcbCurve.v
theories/PcbPlane.v
theories/PcbCyl.v
theories/PcbWall.v
theories/PcbFace.v
theories/PcbDone.v
theories/PcbBoard.v
theories/PcbCase.v
theories/PropPcb.v
theories/OvlModel.v
theories/OvlSpec.v
theories/OvlFacts.v
theories/OvlJoin.v
theories/OvlOps.v
theories/OvlAdd.v
theories/OvlCase.v
theories/OvlHang.v
theories/PropOvl.v
theories/GhModel.v
theories/GhSpec.v
theories/GhTree.v
theories/GhInv.v
theories/GhOps.v
theories/GhStore.v
theories/GhFacts.v
theories/GhRun.v
theories/GhList.v
theories/GhListFacts.v
theories/GhCase.v
theories/PropGh.v
theories/DrModel.v
theories/DrSpec.v
theories/DrFacts.v
theories/DrBoard.v
theories/DrCircle.v
theories/DrCase.v
theories/PropDr.v
theories/IdfText.v
theories/IdfSpec.v
theories/IdfFacts.v
theories/IdfNum.v
theories/IdfRound.v
theories/IdfLine.v
theories/IdfSect.v
theories/PropIdf.v
theories/IdfGeo.v
theories/IdfGeoSpec.v
theories/IdfArc.v
theories/IdfConv.v
theories/IdfLoop.v
theories/IdfMono.v
theories/IdfWind.v
theories/IdfGeoCase.v
theories/IdfGeoTop.v
theories/PropIdfGeo.v
theories/IdfBody.v
theories/IdfBodySpec.v
theories/IdfBodyFacts.v
theories/PropIdfBody.v
theories/IdfOutl.v
theories/IdfOutlSpec.v
theories/IdfOutlFacts.v
theories/IdfOutlText.v
theories/IdfOutlSec.v
theories/IdfOutlCase.v
theories/PropIdfOutl.v
theories/IdfPlace.v
theories/IdfPlaceSpec.v
theories/IdfPlaceFacts.v
theories/IdfPlaceText.v
theories/IdfPlaceAgain.v
theories/IdfPlaceCase.v
theories/PropIdfPlace.v
theories/IdfStar.v
theories/PropIdfStar.v
theories/IdfFile.v
theories/IdfFileSpec.v
theories/IdfFileHead.v
theories/IdfFileSect.v
theories/IdfFileOrder.v
theories/IdfFileOutl.v
theories/IdfFileAgain.v
theories/IdfFileCase.v
theories/PropIdfFile.v
theories/IdfLib.v
theories/IdfLibSpec.v
theories/IdfLibFacts.v
theories/IdfLibFile.v
theories/IdfLibAgain.v
theories/IdfLibCase.v
theories/PropIdfLib.v
theories/IdfRecSpec.v
theories/IdfRecFacts.v
theories/IdfRecCase.v
theories/PropIdfRec.v
theories/IdfRef.v
theories/IdfRefSpec.v
theories/IdfRefFacts.v
theories/IdfRefLib.v
theories/PropIdfRef.v
theories/IdfHold.v
theories/IdfHoldSpec.v
theories/IdfHoldFacts.v
theories/IdfHoldCase.v
theories/PropIdfHold.v
theories/IdfSlot.v
theories/IdfSlotSpec.v
theories/IdfSlotFacts.v
theories/IdfSlotWide.v
theories/PropIdfSlot.v
theories/IdfEmpty.v
theories/PropIdfEmpty.v
theories/IdfParts.v
theories/IdfPartsSpec.v
theories/IdfPartsFacts.v
theories/IdfPartsCase.v
theories/PropIdfParts.v
