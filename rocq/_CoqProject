-Q theories Verif
theories/GraphModel.v
theories/GraphSpec.v
theories/GraphInv.v
theories/GraphComp.v
theories/GraphDijkstra.v
theories/GraphPath.v
theories/GraphDirect.v
theories/PropGraph.v
theories/SMap.v
theories/DataModel.v
theories/DataSpec.v
theories/DataProofs.v
theories/DataSched.v
theories/DataSave.v
theories/PropData.v
theories/BoardModel.v
theories/BoardSpec.v
theories/BoardProofs.v
theories/PropBoard.v
theories/DetectModel.v
theories/DetectSpec.v
theories/DetectProofs.v
theories/PropDetect.v
theories/RansacModel.v
theories/RansacSpec.v
theories/RansacProofs.v
theories/PropRansac.v
theories/GeomModel.v
theories/GeomSpec.v
theories/GeomProofs.v
theories/GeomQuat.v
theories/GeomMedian.v
theories/GeomLog.v
theories/PropGeom.v
theories/ChainModel.v
theories/ChainSpec.v
theories/ChainProofs.v
theories/ChainCam.v
theories/ObjectsModel.v
theories/ObjectsSpec.v
theories/ObjectsProofs.v
theories/ObjectsSave.v
theories/ObjectsBuild.v
theories/ObjectsMerge.v
theories/ObjectsObs.v
theories/GroupModel.v
theories/GroupSpec.v
theories/GroupProofs.v
theories/GroupMerge.v
theories/StageModel.v
theories/StageSpec.v
theories/StageProofs.v
theories/StageMain.v
theories/StageCams.v
theories/DirectCams.v
theories/GroupObs.v
theories/StageMerge.v
theories/GroupPose.v
theories/PipelineModel.v
theories/PipelineSpec.v
theories/StalePairs.v
theories/PipelineProofs.v
theories/GroupAll.v
theories/ObjectsMain.v
theories/EstimateAll.v
theories/PropObjects.v
theories/ChainPairs.v
theories/PropChain.v
theories/PropGroup.v
theories/PropStale.v
theories/HandEyeModel.v
theories/HandEyeSpec.v
theories/HandEyeProofs.v
theories/HandEyePairs.v
theories/HandEyeMain.v
theories/PropHandEye.v
theories/CameraModel.v
theories/ResidualModel.v
theories/ResidualSpec.v
theories/ResidualProofs.v
theories/ResidualMain.v
theories/ResidualGroup.v
theories/ResidualSolve.v
theories/ResidualAvg.v
theories/ResidualCost.v
theories/PropResidual.v
theories/PropUndo.v
theories/WorkflowModel.v
theories/WorkflowRigid.v
theories/WorkflowProofs.v
theories/WorkflowReach.v
theories/WorkflowWhole.v
theories/FileModel.v
theories/FileSpec.v
theories/FileProofs.v
theories/PropFile.v
theories/InputModel.v
theories/InputSpec.v
theories/PropInput.v
theories/IntrinsicModel.v
theories/PropIntrinsic.v
theories/RansacExact.v
theories/RigSpec.v
theories/ApartSpec.v
theories/RigPnP.v
theories/OutlierSpec.v
theories/RansacRobust.v
theories/RigOutliers.v
theories/RigOwn.v
theories/PropWorkflow.v
theories/ApartProofs.v
theories/RigSteps.v
theories/RigExample.v
theories/RigThree.v
theories/PropRig.v
theories/ApartExample.v
theories/PropApart.v
theories/OutlierExample.v
theories/PropOutliers.v
theories/SavedSpec.v
theories/PropSaved.v
theories/CompleteSpec.v
theories/WorkflowTotal.v
theories/WorkflowTwice.v
theories/CompleteExample.v
theories/LogModel.v
theories/LogProofs.v
theories/PropComplete.v
theories/ImagesModel.v
theories/ImagesSpec.v
theories/PropImages.v
theories/TriangModel.v
theories/TriangSpec.v
theories/TriangProofs.v
theories/PropTriang.v
theories/Sizes.v
theories/LogSizes.v
theories/AppModel.v
theories/AppSpec.v
theories/AppProofs.v
theories/PropApp.v
theories/AppExample.v
theories/PropWhole.v
theories/PropRerun.v
theories/PropMotion.v
theories/CreateModel.v
theories/CreateSpec.v
theories/PropCreate.v
theories/PropSizes.v
theories/AnalysisModel.v
theories/AnalysisSpec.v
theories/AnalysisProofs.v
theories/PropAnalysis.v
theories/PropAverage.v
theories/PropReport.v
theories/PropDraw.v
theories/PropScripts.v
theories/AccessModel.v
theories/AccessSpec.v
theories/PropAccess.v
theories/ScaleSpec.v
theories/PropScale.v
theories/RecordSpec.v
theories/PropRecord.v
theories/UnseenProofs.v
theories/UnseenSpec.v
theories/PropUnseen.v
theories/PropUnseenApp.v
theories/StoredSpec.v
theories/PropStored.v
theories/ResizedSpec.v
theories/PropResized.v
theories/PropEntering.v
