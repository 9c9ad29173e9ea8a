import json
P=[]
def p(title,statement,quantifier,why,anchors):
    P.append(dict(id="C%02d"%(len(P)+1),title=title,statement=statement,quantifier=quantifier,why_tests_cant=why,anchors=anchors))
S="McCalib/src/"; I="McCalib/include/"
p("Covisibility components partition what was observed",
  "After any sequence of addVertex/addEdge/clearGraph calls in which no edge joins an index to itself, connectedComponents() returns lists that together contain every inserted index exactly once (since the last clear) and nothing else; two indices are in the same list iff they are joined by a chain of inserted edges; the lists are in order of first insertion of their first member and each list is in insertion order. An empty graph yields no list.",
  "all sequences of graph operations, all integer indices, all weights",
  "needs every graph shape and every insertion order",
  [S+"Graph.cpp:addVertex",S+"Graph.cpp:addEdge",S+"Graph.cpp:clearGraph",S+"Graph.cpp:connectedComponents"])
p("A vertex index names exactly one vertex",
  "Whatever the sequence of addVertex/addEdge calls, each index denotes exactly one vertex, so that an index occurs at most once in the output of connectedComponents(). (False of the code for addEdge(v,v,w) with v new.)",
  "all sequences of graph operations including self edges and duplicates",
  "a universally quantified history; the failing call is not exercised by any workflow test",
  [S+"Graph.cpp:addEdge",S+"Graph.cpp:addVertex"])
p("shortestPathBetween returns a real path",
  "For two inserted indices that are connected, shortestPathBetween(a,b) terminates and returns a list starting at a, ending at b, in which consecutive indices are joined by an inserted edge and no index occurs twice; if an index was never inserted it returns the empty list. For inserted but unconnected indices the call does not terminate.",
  "all graphs, all pairs of indices, every tie-breaking order of the priority queue",
  "all graph shapes; the non-termination cannot be observed by a finishing test",
  [S+"Graph.cpp:shortestPathBetween",S+"Graph.cpp:getPath"])
p("shortestPathBetween minimises the covisibility weight",
  "For connected a,b the returned path has total weight no larger than any other path from a to b. (False of the code: the distance map is integer, so every weight 1/n with n>1 is truncated to 0 during accumulation; what is minimised is the truncated cost.)",
  "all weighted graphs, all pairs of connected vertices",
  "optimality quantifies over all alternative paths in all graphs",
  [S+"Graph.cpp:shortestPathBetween"])
p("ChArUco markers of different boards never clash",
  "For every list of board sizes the boards created together have pairwise disjoint marker identifiers which are consecutive from 0 in board order; the board generator and the calibrator, run with the same sizes, give each board the same identifiers, even if the calibrator creates a prefix only.",
  "all numbers of boards and all board dimensions >=1",
  "all combinations of board dimensions",
  [S+"utilities.cpp:createCharucoBoards","apps/create_charuco_boards/src/create_charuco_boards.cpp"])
p("Every board gets as many marker identifiers as it has markers (OpenCV>=4.7 path)",
  "With OpenCV>=4.7 every created board is given exactly as many identifiers as it has markers and they continue the previous board's identifiers. (False of the code when consecutive boards have different sizes: the identifier vector is sized with the previous board's count.)",
  "all lists of board sizes",
  "needs all mixed-size configurations; tests use equal sizes",
  [S+"utilities.cpp:createCharucoBoards"])
p("Board geometry is the planar ChArUco corner grid",
  "A board with nx*ny squares of side s has exactly (nx-1)(ny-1) 3D points; point k is ((k mod (nx-1))*s, (k div (nx-1))*s, 0); distinct indices have distinct points when s is not 0; per-board sizes, when given, are those of the board's own configured index.",
  "all nx,ny>=2, all square sizes, all corner indices, all board subsets",
  "all sizes and indices",
  [S+"Board.cpp:Board"])
p("Observation bookkeeping is consistent",
  "After any sequence of board insertions the global observation table, the camera's, the board's, the frame's and the camera-frame's tables all contain the observation exactly once under its own (camera, frame, board), with dense keys 0..n-1, and contain nothing else; no earlier observation is lost or altered.",
  "all sequences of (camera, frame, board, corners) insertions, including repeats",
  "all insertion histories",
  [S+"McCalib.cpp:insertNewBoard",S+"Board.cpp:insertNewBoard",S+"Camera.cpp:insertNewBoard",S+"Frame.cpp:insertNewBoard",S+"CameraObs.cpp:insertNewBoard"])
p("Detection threads cannot lose or duplicate observations",
  "For every interleaving of the detection workers (each insertion performed under the mutex) the final tables hold the same multiset of observations as sequential detection, and each camera's frame table is the same; only the numeric keys depend on the schedule.",
  "all schedules of any number of workers over any partition of the images",
  "schedules cannot be enumerated by tests",
  [S+"McCalib.cpp:detectBoardsWithCamera",S+"McCalib.cpp:detectBoardsInImageWithCamera",S+"McCalib.cpp:insertNewBoard"])
p("Every camera and board lists all of its frames",
  "After detection each camera's (and board's) own frame table contains every frame in which that camera (board) has an observation. (False of the code: it is updated only by the insertion that creates the frame.)",
  "all insertion sequences",
  "depends on the insertion order/schedule",
  [S+"McCalib.cpp:insertNewBoard"])
p("Saved keypoints can be loaded back",
  "saveDetectedKeypoints followed by loadDetectedKeypoints rebuilds for every camera, frame and board the same corner identifiers and image coordinates, whenever every camera saw at least one board; a camera with no observation makes loading fail its assertion. A keypoints file is taken only if it has five lists of one positive length for every camera.",
  "all observation tables",
  "round trip over all contents",
  [S+"McCalib.cpp:saveDetectedKeypoints",S+"McCalib.cpp:loadDetectedKeypoints"])
p("Board acceptance rule",
  "A detected board is stored iff it belongs to the configured set, has more than round(min_perc_pts*nb_pts) corners, is not collinear within 10% of the square size and has more than 4 corners; what is stored has one identifier per corner, each of them that of a corner of the board.",
  "all detections, all percentages, all board sizes",
  "all combinations of thresholds and counts",
  [S+"McCalib.cpp:detectBoardsInImageWithCamera"])
p("Corner refinement never moves a corner far and never makes it infinite",
  "After sub-pixel refinement every corner is finite, stored corners move at most (just over) one pixel from the detector's position in each coordinate, identifiers are unchanged; corners after the first diverged one keep the detector's position.",
  "all images, all initial corners, all iteration counts",
  "all image contents",
  [I+"point_refinement.h:saddleSubpixelRefinement",S+"McCalib.cpp:detectBoardsInImageWithCamera"])
p("Patch interpolation stays inside the image",
  "For every image size, half-window and real-valued centre, interpolatePatch either refuses or reads only pixels inside the image, and each interpolated value lies between the smallest and largest pixel read; the number of interpolated values equals the number of rows of the least-squares system. (The last part is false of the code: the number of rows is added to an uninitialised counter.)",
  "all image sizes, window sizes, centres and pixel values",
  "memory safety over every real coordinate",
  [I+"point_refinement.h:interpolatePatch",I+"point_refinement.h:initConeSmoothingKernel",I+"point_refinement.h:initSaddleFitting"])
p("RANSAC PnP is bounded and keeps the best consensus",
  "ransacP3P performs at most the configured number of iterations whatever the data; the inliers it returns are exactly the points whose reprojection error under the best trial pose is below the threshold, no trial had more inliers, and it needs at least four points (fewer is an out-of-bounds access).",
  "all point sets, all sampling sequences, all solver answers",
  "random sampling and arbitrary solver behaviour",
  [S+"geometrytools.cpp:ransacP3P",S+"geometrytools.cpp:ransacP3PDistortion"])
p("Outlier removal keeps points and identifiers aligned",
  "After BoardObs::estimatePose every surviving image point still carries its own identifier, in the original order, only inliers survive, and the observation is invalid exactly when fewer than four survive.",
  "all observations, all inlier sets",
  "all inlier patterns",
  [S+"BoardObs.cpp:estimatePose"])
p("Pose estimation is never called with too few points",
  "Every call of the PnP RANSAC during calibration is made with at least 4 points. (False of the code: a 3D-object observation can consist of a single board observation that outlier removal left with 1 to 3 points; it is still passed on.)",
  "all observation sets reaching the object stage",
  "reachability over all histories",
  [S+"McCalib.cpp:init3DObjectObs",S+"Object3DObs.cpp:estimatePose",S+"geometrytools.cpp:ransacP3P"])
p("median() is the median",
  "median(v) of a non-empty vector is the middle order statistic (mean of the two middle ones for even length); it depends only on the multiset, lies between min and max, commutes with translation, and at least half of the values are on either side of it.",
  "all non-empty vectors of reals",
  "all lengths and orderings",
  [S+"geometrytools.cpp:median"])
p("Rotation <-> quaternion conversion round-trips",
  "For every rotation matrix the computed quaternion is well defined (no division by zero, no negative square root), has unit norm and converts back to exactly the same matrix; for every unit quaternion the computed matrix is a rotation, and q and -q give the same matrix.",
  "all rotation matrices / all unit quaternions over the reals",
  "all four trace branches over a continuum",
  [S+"geometrytools.cpp:convertRotationMatrixToQuaternion",S+"geometrytools.cpp:convertQuaternionToRotationMatrix"])
p("Quaternion averaging ignores sign and order",
  "The matrix whose dominant eigenvector is the average is unchanged by permuting the rotations or negating any quaternion, is symmetric positive semi-definite of trace 1, and for identical rotations the average is that rotation.",
  "all non-empty lists of rotations",
  "all lists and sign choices",
  [S+"geometrytools.cpp:getAverageRotation"])
p("Pose inversion and composition form a group acting on points",
  "Inverting a rigid pose twice gives it back, a pose composed with its inverse is the identity, transforming points by a composed pose equals transforming twice, and rigid transforms preserve distances between points.",
  "all rigid poses, all point lists",
  "continuum of inputs",
  [S+"geometrytools.cpp:RVecT2Proj",S+"geometrytools.cpp:Proj2RT",S+"geometrytools.cpp:invertRvecT",S+"geometrytools.cpp:transform3DPts"])
p("Boards are chained into an object consistently",
  "For noise-free inter-board poses and any path length the pose init3DObjects gives a board is its true pose relative to the reference board, so every board's points land at their true position in the object frame; the same holds for objects in mergeObjects.",
  "all numbers of boards, all paths, all true poses",
  "arbitrary path lengths",
  [S+"McCalib.cpp:init3DObjects",S+"McCalib.cpp:mergeObjects"])
p("Cameras are chained into a group consistently",
  "For noise-free inter-camera poses and any path length the pose initCameraGroup (mergeCameraGroup) gives a camera is its true pose relative to the reference camera. (False of the code for paths of two or more edges: the factors are multiplied in reversed order; true for paths of at most one edge.)",
  "all numbers of cameras, all paths, all true poses",
  "arbitrary path lengths; existing data sets rarely exercise long chains with non-commuting poses",
  [S+"McCalib.cpp:initCameraGroup",S+"McCalib.cpp:mergeCameraGroup"])
p("The reference camera / board is the origin",
  "In every camera group the reference camera is a member, has the smallest index and pose identity; in every 3D object the reference board is a member, has the smallest index and pose identity; this still holds after merging.",
  "all observation sets and groups",
  "all group structures",
  [S+"McCalib.cpp:initCameraGroup",S+"McCalib.cpp:mergeCameraGroup",S+"McCalib.cpp:init3DObjects",S+"McCalib.cpp:mergeObjects"])
p("All bundle-adjustment residuals implement one projection model",
  "The residual functors compute the same pixel error as one reference projection of the point through (board in object), (object in group) and (camera in group) poses with Brown or fisheye distortion; with the refine flag off the corresponding pose has no influence; the fisheye residual does not depend on the fifth distortion parameter.",
  "all poses, points, intrinsics and both distortion models",
  "continuum of inputs",
  [I+"OptimizationCeres.h:ReprojectionError",I+"OptimizationCeres.h:ReprojectionError_3DObjRef",I+"OptimizationCeres.h:ReprojectionError_CameraGroupRef",I+"OptimizationCeres.h:ReprojectionError_CameraGroupAndObjectRef",I+"OptimizationCeres.h:ReprojectionError_CameraGroupAndObjectRefAndIntrinsics"])
p("Object point numbering is a bijection",
  "In each 3D object the map (board, corner)->object point and its reverse are mutually inverse bijections onto 0..nb_pts-1, nb_pts is the sum of the boards' corner counts, and the saved file lists every corner of every board of the object exactly once with its 3D point.",
  "all board sets, sizes and merge sequences",
  "all sizes and groupings",
  [S+"McCalib.cpp:init3DObjects",S+"McCalib.cpp:mergeObjects",S+"McCalib.cpp:save3DObj",S+"Object3D.cpp:insertBoardInObject"])
p("Board observations are grouped into object observations without loss",
  "Every board observation with at least one point whose board is part of an object is in exactly one object observation, that of its own camera, frame and object, with the correct object point indices.",
  "all observation tables and object structures",
  "all histories",
  [S+"McCalib.cpp:init3DObjectObs",S+"McCalib.cpp:initAll3DObjectObs",S+"Object3DObs.cpp:insertNewBoardObs"])
p("Merging objects keeps each observation once",
  "After mergeAllObjectObs every board observation of a merged object is in exactly one object observation of its camera and frame, once. (False of the code with several objects: each is inserted once per object because of a redundant nested loop.)",
  "all object partitions",
  "all partitions; duplicates are invisible in aggregate errors",
  [S+"McCalib.cpp:mergeAllObjectObs"])
p("Pairwise relative poses",
  "Relative poses are computed only between distinct boards (objects, cameras) seen together, each ordered pair's list has as many entries as co-observations, (b,a) lists the inverses of (a,b) and noise-free data gives the true relative pose.",
  "all observation tables",
  "all co-visibility patterns",
  [S+"McCalib.cpp:computeBoardsPairPose",S+"McCalib.cpp:computeCamerasPairPose",S+"McCalib.cpp:computeObjectsPairPose",S+"McCalib.cpp:initInterBoardsGraph"])
p("Camera groups partition the cameras",
  "Every camera that has an observation is in exactly one camera group and no other camera is; cameras sharing a group are linked by a chain of co-observations.",
  "all observation tables",
  "all co-visibility patterns",
  [S+"McCalib.cpp:initCameraGroup",S+"McCalib.cpp:initInterCamerasGraph",S+"McCalib.cpp:mergeCameraGroup"])
p("Group observations contain exactly their cameras' object observations",
  "For each group and frame, the group observation holds exactly the object observations made in that frame by the group's cameras, each once, with matching object identifiers.",
  "all observation tables and group partitions",
  "all partitions",
  [S+"McCalib.cpp:initCameraGroupObs",S+"McCalib.cpp:mergeAllCameraGroupObs",S+"CameraGroupObs.cpp:insertObjectObservation"])
p("Object pose in a group observation",
  "The pose of an object in a group observation is the reference camera's if the reference camera sees it, otherwise the mean translation / average rotation over all its views; duplicated bookkeeping entries do not change it; all object observations get the same group pose.",
  "all group observations",
  "all multiplicities",
  [S+"CameraGroupObs.cpp:computeObjectsPose",S+"CameraGroupObs.cpp:updateObjObsPose",S+"CameraGroup.cpp:computeObjPoseInCameraGroup"])
p("Hand-eye bootstrap is memory safe for every number of poses",
  "For every number of common poses for which it is called (more than 3), cluster selection only indexes existing clusters and poses. (False of the code for 4 or 5 common poses: 6 clusters are picked out of fewer.)",
  "all pose counts, all cluster assignments, all random choices",
  "random choices, small counts",
  [S+"geometrytools.cpp:selectClusters",S+"geometrytools.cpp:selectPoses",S+"geometrytools.cpp:handeyeBootstratpTranslationCalibration",S+"McCalib.cpp:initNonOverlapPair"])
p("Hand-eye results are validated against both cameras' motions",
  "A hand-eye candidate is kept only if it is consistent with the selected pose pairs, and the fall-back estimate uses both cameras' poses. (False of the code: the consistency check compares each pose with itself, so its verdict does not depend on the poses; the fall-back passes the first camera's poses twice.)",
  "all pose sets and candidates",
  "continuum of inputs",
  [S+"geometrytools.cpp:checkSetConsistency",S+"geometrytools.cpp:handeyeBootstratpTranslationCalibration"])
p("Best object pair for non-overlapping cameras",
  "The object pair chosen for two groups is one with the maximal number of frames in which both are seen, the first in index order among ties, and a relative pose is computed only if more than three such frames exist.",
  "all observation tables",
  "all counts and ties",
  [S+"McCalib.cpp:findPairObjectForNonOverlap",S+"McCalib.cpp:initNonOverlapPair"])
p("Saved camera parameters cover every camera",
  "saveCamerasParams writes one record per calibrated camera with its intrinsics, distortion, image size, group and inverse pose. (False of the code with two or more groups: the file is closed inside the group loop, so only the first group's cameras are written.)",
  "all group structures",
  "all group structures",
  [S+"McCalib.cpp:saveCamerasParams"])
p("Saved reprojection errors belong to their group",
  "saveReprojectionErrorToFile writes for each group the frames in which that group has observations. (False of the code: the frame list is never cleared between groups, so later groups repeat earlier groups' frames.)",
  "all group structures",
  "all group structures",
  [S+"McCalib.cpp:saveReprojectionErrorToFile"])
p("Intrinsics survive being set, read, saved and reloaded",
  "Setting then reading the camera matrix / distortion vector gives back what was set (5 coefficients for the perspective model, 4 for the fisheye model), does not disturb the other, and saved parameters loaded as initial intrinsics reproduce them.",
  "all values and both distortion models",
  "all values",
  [S+"Camera.cpp:setCameraMat",S+"Camera.cpp:getCameraMat",S+"Camera.cpp:setDistortionVector",S+"Camera.cpp:getDistortionVectorVector",S+"McCalib.cpp:saveCamerasParams",S+"McCalib.cpp:initializeCalibrationAllCam"])
p("fix_intrinsic freezes the intrinsics",
  "With fix_intrinsic set and initial parameters given, no step of the calibration workflow changes any camera's intrinsics; without it, refinement happens only at the documented steps. A named file of initial parameters that does not exist neither stops the run nor makes it initialise from images: the cameras keep what was in memory.",
  "all workflows, all optimiser behaviours",
  "arbitrary optimiser results",
  [S+"McCalib.cpp:initIntrinsic","apps/calibrate/src/calibrate.cpp",S+"Camera.cpp:refineIntrinsicCalibration"])
p("Configuration keys are honoured",
  "Every documented configuration key determines the corresponding setting, and keypoints_path and cam_params_path determine what a run starts from; a single value where a list is expected is a list of one. (False of the code for quaternion_averaging: it is read under the key 'quaternion_averaging:' and so is always off.)",
  "all configuration files",
  "all files; wrong key is silent",
  [S+"McCalib.cpp:Calibration"])
p("Fisheye border rule and initial subset",
  "A fisheye board observation is used for initial calibration only if every corner is strictly inside the 5% border; the initial subset has the documented size and no repeated board.",
  "all image sizes, all observations, all shuffles",
  "all shuffles",
  [S+"Camera.cpp:checkBorderToleranceFisheye",S+"Camera.cpp:initializeCalibration"])
p("Average reprojection error is a mean of non-negative errors",
  "computeAvgReprojectionError is the mean over group/object observations of each observation's mean point distance; it lies between the smallest and largest per-observation error, is 0 iff every observation is fitted exactly, and is undefined exactly when there is no observation.",
  "all observation sets and poses",
  "all sizes and values",
  [S+"McCalib.cpp:computeAvgReprojectionError"])
p("Image files are selected and numbered deterministically",
  "Exactly the files whose extension (after the last dot) is one of jpg,png,bmp,jpeg,jp2,tiff are used, in the listing order, numbered from 0 without gaps; camera k reads folder prefix + three-digit k+1. The image size saved for a camera is the size of the first image of its folder (or the one in the keypoints file, if that is used).",
  "all directory listings",
  "all listings",
  [S+"McCalib.cpp:detectBoards"])
p("Merging the camera groups a second time keeps what was found",
  "The workflow merges camera groups twice, with a merge of the 3D objects in between, using the inter-group poses computed before the first merge: the second merge puts cameras into one group only if their original groups are linked by such poses, and never fails. (False of the code: the poses are filed under the old group numbers, which mean other groups after the first merge, so that unrelated groups are joined, or a group that no longer exists is dereferenced; true when all groups that see something are linked with group 0.)",
  "all detections, all tables of inter-group poses, all poses and refinement results in between",
  "needs particular combinations of non-overlapping camera groups",
  ["apps/calibrate/src/calibrate.cpp",S+"McCalib.cpp:initInterCamGroupGraph",S+"McCalib.cpp:mergeCameraGroup"])

p("Relative poses of camera groups are stored for both orders",
  "For two camera groups without common object, the workflow stores a relative pose for (a,b) iff it stores one for (b,a), so that merging the groups always finds the pose of every edge of the graph in the direction it walks. (False of the code: the object pair is chosen independently for each order, and ties are broken by index order, so that one order can have more than three common frames and the other not; merging then multiplies with an empty matrix. True when no two object pairs tie.)",
  "all detections, group structures, pose estimates and solver results",
  "Needs a tie between object pairs seen with different numbers of cameras per frame; data sets used in tests never have one.",
  [S+"McCalib.cpp: Calibration::findPairObjectForNonOverlap, initNonOverlapPair, initInterCamGroupGraph, mergeCameraGroup"])

p("What is optimised is what is reported",
  "For every camera group, the residuals that the three group refinements minimise are, observation by observation and corner by corner, the differences between detected points and the reprojections from which the reported errors are computed; the reported average is 0 exactly if the cost of all groups is 0.",
  "all detections, all states between the steps of the workflow, all poses (rotation angles 0 or above 1.5e-8), intrinsics and distortion models",
  "the two computations are written separately (cost functors with board corners and three poses; reports with object points and two poses), and must agree for all poses and points",
  ["McCalib/include/OptimizationCeres.h",S+"CameraGroup.cpp:refineCameraGroup, refineCameraGroupAndObjects, refineCameraGroupAndObjectsAndIntrinsics",S+"McCalib.cpp:computeAvgReprojectionError"])
p("Refinement keeps the calibration consistent",
  "Refinement never reads outside a container, leaves the poses of the reference board of every object and of the reference camera of every group alone (the identity), keeps the members of objects and groups, and recomputes the object points from the refined board poses, so that everything that holds of the workflow's states holds afterwards.",
  "all detections, all states between the steps of the workflow, all solver results that do not move parameters without influence",
  "all solver results",
  [S+"Object3D.cpp:refineObject, updateObjectPts",S+"CameraGroup.cpp:refineCameraGroup, refineCameraGroupAndObjects, refineCameraGroupAndObjectsAndIntrinsics",S+"McCalib.cpp:refineAllObject3D, refineAllCameraGroup, refineAllCameraGroupAndObjects"])
p("Every detection is refined against its own corner",
  "The residual blocks of a camera, object or camera group are exactly the corners of its board observations: each detected point is paired with the 3-D point of the same corner of the same board, with the lens of the camera that saw it and with the poses of that board, object, frame, group and camera; every board observation with a corner is used by exactly one camera group.",
  "all detections, all states between the steps of the workflow",
  "index arithmetic through three layers of containers",
  [S+"Camera.cpp:refineIntrinsicCalibration",S+"Object3D.cpp:refineObject",S+"CameraGroup.cpp:refineCameraGroupAndObjects, refineCameraGroupAndObjectsAndIntrinsics"])
p("Refinement does not make a calibration worse",
  "The cost of no object and of no camera group is higher after refinement than before, and a calibration that meets all detections is not changed. (False of the code when several groups share an object with more than one board: they are refined one after the other with the same board poses, and the last one can raise the cost of the others and the total. True for objects, for groups with fixed boards, for one group, and for any groups no two of which see the same board other than the first of its object.)",
  "all detections, all states between the steps of the workflow, all solvers that do not increase the cost of the problem they are given",
  "all solver results; parts refined one after the other could undo each other",
  [S+"McCalib.cpp:refineAllObject3D, refineAllCameraGroup, refineAllCameraGroupAndObjects, refineAllCameraGroupAndObjectsAndIntrinsic"])
p("Saved object poses are poses in the reference camera",
  "calibrated_objects_pose_data.yml gives, for each object and each frame in which it is seen, its pose with respect to the reference camera, as refined. (False of the code: each saved pose is the pose with respect to the camera that made the observation, one per camera and frame, and is the estimate from before the last refinement.)",
  "all detections, all solver results, all complete runs",
  "all complete runs",
  ["README.md: Object's poses",S+"McCalib.cpp:save3DObjPose","apps/calibrate/src/calibrate.cpp",S+"Object3DObs.cpp:estimatePose, setPoseMat"])
p("Completed runs are consistent",
  "Whenever the calibration workflow runs to its end, what it leaves is consistent: the tables describe exactly the detections, the objects, groups, numberings and observations are those of a state between steps of the workflow, the parameters the solver works on and the poses saved are the same, and all poses are rigid.",
  "all detections, all outcomes of the numeric oracles (PnP, Ceres, hand-eye), all complete runs",
  "all complete runs",
  ["apps/calibrate/src/calibrate.cpp",S+"McCalib.cpp:initIntrinsic, calibrate3DObjects, calibrateCameraGroup, merge3DObjects"])
p("Exact data give an exact calibration",
  "If the detections are the exact images of a rig of boards and cameras, every two boards and every two cameras are connected through common views, the rig has at most two cameras, or all of its cameras have the same orientation, or every camera sees a board together with the first camera at least twice, the run starts from the true intrinsics, and OpenCV and Ceres are correct on noise-free data, then the whole workflow runs to its end, the reported reprojection error is 0, the camera file holds the true intrinsics and the true poses relative to the first camera, the object points are the true positions of the corners in the frame of the first board, and every saved object pose is the true pose of the object in the camera that saw it.",
  "all rigs, motions and boards, all sets of views, all outcomes of the random choices",
  "all rigs and all sets of views; passes through every stage of the workflow",
  ["apps/calibrate/src/calibrate.cpp",S+"McCalib.cpp:initIntrinsic, calibrate3DObjects, calibrateCameraGroup, merge3DObjects, refineAllCameraGroupAndObjects, saveCamerasParams, save3DObj, save3DObjPose, computeAvgReprojectionError"])
p("Wrong corners do not change the result",
  "If some of the detected corners are wrong, but the others are exact images of a rig as above and sample consensus can tell them apart (wrong corners are off by at least the threshold, no pose made from a sample with a wrong corner explains as many corners as are right, and a sample of right corners is drawn in time), then the calibration ends as if the wrong corners had not been detected: true cameras, objects and poses, error zero, and the wrong corners are gone from the observations.",
  "all rigs, motions and boards, all sets of views, all wrong corners, all outcomes of the random choices",
  "all rigs, all patterns of wrong corners; passes through every stage of the workflow",
  ["apps/calibrate/src/calibrate.cpp",S+"BoardObs.cpp:estimatePose",S+"geometrytools.cpp:ransacP3P, ransacP3PDistortion",S+"McCalib.cpp:initIntrinsic, calibrate3DObjects, calibrateCameraGroup, merge3DObjects"])
p("The keypoints file has what is left of the detections",
  "The keypoints that a completed run saves, and a later run loads, are for every detected board the corners that outlier removal left, with their points and numbers, and nothing else. So the file is not a record of the detections: corners that the first run removed are missing in runs with other parameters, and a board with fewer than four corners left makes any later run from the file undefined.",
  "all completed runs and all later runs from their keypoints file",
  "all detections, all outcomes of outlier removal, two runs",
  ["apps/calibrate/src/calibrate.cpp",S+"McCalib.cpp:saveDetectedKeypoints, loadDetectedKeypoints",S+"BoardObs.cpp:estimatePose"])
p("Which runs get through",
  "A calibration of well detected boards runs to its end exactly when, after outlier removal, every image keeps no corner at all or at least four corners over all its boards, and (if such poses are stored for both orders of two groups, see C45) the poses found between camera groups without common view still name existing groups when they are used for the second time: with n sets of connected groups, every pair must be connected to one of the groups 0 to n-1; and, because reprojection errors are computed for the log with an OpenCV function that refuses an empty list of points, no board of a perspective camera loses all its corners. One image with one, two or three corners left makes the whole run undefined, and one board of a perspective camera without any corner left ends it with an exception; a single camera needs the conditions on the corners only. The steps that only log change nothing else.",
  "all detections, all outcomes of the numeric oracles, all camera models; a hand-eye method that returns a pose for more than three common frames",
  "all detections and all sets of removed corners; passes through every stage of the workflow",
  ["apps/calibrate/src/calibrate.cpp",S+"McCalib.cpp:initIntrinsic, calibrate3DObjects, calibrateCameraGroup, merge3DObjects, mergeCameraGroup",S+"Object3DObs.cpp:estimatePose",S+"geometrytools.cpp:ransacP3P"])
p("The saved pictures show what was optimised",
  "After a completed run, the reprojection pictures are drawn if and only if every corner left has a finite reprojection. There is exactly one picture for every camera and frame whose image can be read again, in a file named after camera and frame that no other picture has; it is drawn over that image and shows, for every corner left in the image, a red circle where the final parameters put it with a green one where it was detected on top, and nothing else. The detection pictures are always drawn and show the corners left, in the colour of their object. If the reported error is 0, every red circle is at the place of its green one.",
  "all completed runs, all sets of images that can be read again, all cameras, frames and corners",
  "all detections, all outcomes of the numeric oracles, file names over all camera and frame numbers; passes through every stage of the workflow",
  ["apps/calibrate/src/calibrate.cpp",S+"McCalib.cpp:saveReprojectionImages, saveReprojectionImagesAllCam, saveDetectionImages, saveDetectionImagesAllCam",S+"CameraGroupObs.cpp:updateObjObsPose"])
p("Triangulation of a point",
  "From exact views of a point by cameras without lens distortion, at least two of them along different lines, the linear triangulation returns the point; one view is an exception. The robust version ends within the given number of rounds, never returns a point that agrees with fewer views than some candidate it tried, leaves the point handed in unchanged if no candidate agrees with any view, and returns the true point from exact views of which every two are along different lines, whatever the random choices. It is undefined with fewer than four views although two determine the point, and exact views by cameras with lens distortion do not give the point.",
  "all points, views, random orders and round limits",
  "all numbers and positions of views, all random orders",
  [S+"geometrytools.cpp:triangulateNViewLinearEigen, ransacTriangulation, RVecT2ProjInt"])
p("What the application writes, and when",
  "Called without arguments, or with a path that is no existing .yml file, the calibrate application touches nothing. Otherwise it makes no folder other than the save folder and the Detection and Reprojection folders with their numbered camera folders below it; it draws pictures or writes a result file only after the whole calibration ran to its end. If it returns 0, it has written, in this order, those of cameras, objects, object poses, reprojection errors and keypoints whose files could be opened, with the contents of that run, and has drawn exactly the pictures the configuration asks for. Killed anywhere, at most the file last opened is incomplete, and a complete keypoints file means that nothing is missing. A completed calibration is saved (the application returns 0) exactly if every corner left has a finite reprojection (none at depth zero); the calibration is set up with the number of cameras, lens models and board sizes of the configuration, and the camera file names these lens models; unless a keypoints file is read, every board that enters it was found in the readable image of its camera and frame number, with the library's corners, moved exactly if refine_corner is not 0; the results have different file names unless the configured camera file name is one of the other four. Returning 0 does not mean that anything was saved.",
  "all command lines, configurations, file systems, detections, thread schedules, outcomes of the numeric oracles and points at which the process is killed",
  "all file system states, all crash points, all configurations; passes through every stage of the workflow",
  ["apps/calibrate/src/calibrate.cpp:main, runCalibrationWorkflow",S+"McCalib.cpp:Calibration::Calibration, saveCamerasParams, save3DObj, save3DObjPose, saveReprojectionErrorToFile, saveDetectedKeypoints, saveReprojectionImagesAllCam, saveDetectionImagesAllCam"])
p("The application on exact data",
  "If every corner that enters the calibration (from the keypoints file or from the images) is exactly where a rig of cameras sees it, the views determine the poses, and the cameras share views (or are sets sharing views, any two of which see boards at once so often that the hand-eye calibration relates them), and the intrinsics start from a file with the true parameters or from an OpenCV calibration that finds them, then the calibrate application returns 0 and the files that could be opened are those of the rig: the true camera parameters and poses; all corners of all boards seen at their true places in the frame of a board; this board's true pose for every image; and only zeros in the error file. A configured but missing parameter file does not stop the run: it goes on with uninitialised intrinsics.",
  "all rigs, motions, boards, configurations, file systems, thread schedules and outcomes of the random choices",
  "all rigs and all sets of views; passes from the configuration through every stage of the workflow to the saved files",
  ["apps/calibrate/src/calibrate.cpp:main, runCalibrationWorkflow",S+"McCalib.cpp:Calibration::Calibration, boardExtraction, initializeCalibrationAllCam, saveCamerasParams, save3DObj, save3DObjPose, saveReprojectionErrorToFile",S+"Camera.cpp:initializeCalibration"])
p("Calibrating again from the saved files",
  "A run that reads the keypoints and the camera parameters written by an earlier run with the same cameras and boards starts from exactly the corners the earlier run kept, if every camera detected a board in it. If that data was exact (see the property on exact data), the second run returns 0 too and saves the same intrinsic parameters, camera models and poses for the same cameras, whatever the save path, the other settings and the random choices. If some camera had detected no board, or some board had been left with one, two or three corners, the second run ends without any result.",
  "all pairs of runs, configurations, file systems, detections, thread schedules and outcomes of the numeric oracles",
  "a history of two runs; passes through every stage of the workflow twice",
  ["apps/calibrate/src/calibrate.cpp:main, runCalibrationWorkflow",S+"McCalib.cpp:saveDetectedKeypoints, loadDetectedKeypoints, saveCamerasParams, initializeCalibrationAllCam"])
PU="python_utils/"
p("Comparison with a ground truth",
  "The comparison script reports zero for every error exactly when every camera of the file has the focal lengths, principal point and pose of the ground truth; all numbers are non-negative and the rotation error of a camera is the angle, in degrees, between its orientation and the true one. The reported numbers are the averages over the cameras of the distances between the positions, of those angles, and of the absolute differences of the focal lengths and of the principal point. For a run on exact data the report is zero if and only if the ground truth is given in the coordinates of camera 0. If the calibration ended with several camera groups, or the ground truth has another number of cameras, the script ends with an exception.",
  "all camera files with rigid poses, all ground truths, all completed runs",
  "all poses and calibrations; the last parts pass through every stage of the workflow",
  [PU+"compute_pose_error_vs_gt.py",PU+"post_calibration_analysis.py",S+"McCalib.cpp:saveCamerasParams"])
p("The bar chart of reprojection errors",
  "From the error file of a calibration that ended with one group of at most 100 cameras, the statistic script draws one bar for every frame in which the group saw a corner, in order of the frames. If no camera sees two objects in one image, the bar is the mean over the images of that frame of the mean distance between the corners detected and reprojected; if a camera sees two objects, only its first entry counts, once for each object. If every error in the file is zero, so is every bar. With several groups, or a camera number of 100 or more, the script ends with an exception.",
  "all reachable states, parameters and error files",
  "all detections and numbers of cameras, frames and objects",
  [PU+"compute_error_statistic.py",S+"McCalib.cpp:saveReprojectionErrorToFile"])
p("The drawings of a calibration",
  "From the files of an exact calibration in which every camera saw a board, the drawings show every camera as a wire frame at its true place, in the axes of camera 0, except for two edges that are drawn elsewhere; the corners of object 0, each board in one colour and every corner in exactly its board's; and for every 50th view of object 0 its corners where the camera of that view sees them, in the axes of that camera. So a view of another camera than camera 0 is drawn in the wrong place among the cameras.",
  "all rigs, files and views",
  "all rigs and sets of views; for a whole run, all stages of the workflow",
  [PU+"display_calib_cameras.py",PU+"display_calib_object.py",PU+"display_cam_obj_pose.py",PU+"utils.py",S+"McCalib.cpp:saveCamerasParams, save3DObj, save3DObjPose"])

p("Cameras without a common view",
  "If the detections are the exact images of a rig whose cameras form any number of sets, each connected by common views, that never have a view in common, then the motion of the boards relates them: if cameras of any two sets often see boards at once (in four frames, six for the bootstrapped method, where the sets are single cameras), and these boards turn about more than one axis, in any four of the frames in question for the plain hand-eye method, or in any six for the bootstrapped one and with cameras of similar orientation, then the calibration ends with a single group, reprojection error zero, and the true parameters and poses of all cameras, boards and objects, whatever the random choices. In particular any number of cameras, any two of which see a board each at once in four (six) frames, are related truly.",
  "all rigs of any number of sets of cameras, motions, boards, numbers of frames, and outcomes of clustering and random choices",
  "all rigs, motions and sets of views, all random choices; passes through every stage of the workflow",
  [S+"McCalib.cpp:findPairObjectForNonOverlap, initNonOverlapPair, findPoseNoOverlapAllCamGroup, mergeCameraGroup",S+"geometrytools.cpp:handeyeCalibration, handeyeBootstraptTranslationCalibration"])
p("The board generator prints the boards the calibration looks for",
  "Called with a configuration file, the board generator either ends normally or does nothing at all to the file system. If it ends normally it has written, for every board 0 .. number_board - 1, one image to charuco_boards/charuco_board_NNN.bmp (as far as that file can be opened), with the squares and the resolution configured for that board and the markers of all boards numbered consecutively; no two boards ever share a file. The board that a calibration with the same configuration looks for under its number is the one in the file of that number, if the generator prints that many boards; it is not so that all boards of boards_index are printed. With a marker that is not smaller than its square neither program makes anything.",
  "all configuration files, file systems, numbers and sizes of boards",
  "all configurations and numbers of boards; relates two programs",
  ["apps/create_charuco_boards/src/create_charuco_boards.cpp:main, saveBoards",S+"utilities.cpp:createCharucoBoards, createCharucoBoardsImages",S+"McCalib.cpp:Calibration::Calibration"])
p("The pose that was set is the pose that is read",
  "After any sequence of calls of the pose accessors of an object, a camera group or an observation, every getter tells of a pose what the last setter call for it said: the same rotation vector and translation if they were given as vectors, and the same matrix if it was given as a rigid matrix; setting one pose changes no other, and the poses of an object in its camera and in its group do not disturb each other. In the tables of poses (boards of an object, cameras of a group, objects in a group observation) a pose that was never set reads as the identity, and asking for it adds it to the table; in an observation it is indeterminate. A rotation vector of less than half a turn that is given as a matrix comes back unchanged; at half a turn it may come back with the opposite sign. Six floats with a rotation of less than half a turn survive the conversion to a matrix and back, and a matrix is converted to floats with a relative error of at most 2^-24 in each of the numbers.",
  "all sequences of calls, poses and names",
  "all histories of calls and all poses",
  [S+"BoardObs.cpp:getPoseVec, getPoseMat, setPoseVec, setPoseMat",S+"Object3DObs.cpp:getPoseVec, getPoseInGroupVec, setPoseInGroupMat",S+"Object3D.cpp:getBoardPoseVec, setBoardPoseMat",S+"CameraGroup.cpp:getCameraPoseVec, setCameraPoseMat",S+"CameraGroupObs.cpp:getObjectPoseVec, setObjectPoseMat",S+"geometrytools.cpp:vectorProj, ProjToVec"])
p("The unit of length is that of the square sizes",
  "If the detections are exact and the sizes of all squares are configured s times too large (or in another unit), the calibration succeeds as with the true sizes: the same cameras are saved with the same intrinsic parameters and rotations, and all translations of cameras and all corners of objects are s times as large. The reported reprojection error is zero in both cases, so that wrong sizes of the squares never show in it.",
  "all rigs, exact detections, factors s > 0, solvers and random choices",
  "all rigs and all factors; relates two runs through every stage of the workflow",
  [S+"McCalib.cpp",S+"Board.cpp:Board::Board",S+"OptimizationCeres.h"])

p("Recordings of the same cameras agree",
  "Two runs of the calibrate application on exact data of the same cameras return 0 and save the same intrinsic parameters, lens models and relative poses of any two cameras that both files have, and the same poses if the camera with the lowest number is the same, whatever boards were shown where and how often, whatever the other settings, the choice of world coordinates and the random choices. Two runs on exact data of the same boards fixed to each other in the same way, by whatever cameras, save objects with the same distances between corners.",
  "all pairs of runs on exact data, all rigs, settings, folders and random choices",
  "relates two runs through every stage of the application, for all recordings",
  ["apps/calibrate/src/calibrate.cpp",S+"McCalib.cpp"])

p("Boards that no image shows have no influence",
  "The same detections are calibrated with two descriptions of the boards: other numbers of boards, other sizes and corners of boards, but every board that is detected in some image is described alike. Then one calibration succeeds exactly when the other does, and everything that is saved and reported is the same: cameras, objects, object poses, reprojection errors, keypoints and the mean error. The application itself, reading the detected corners from a file, does exactly the same with two configurations that differ in such boards only: the same folders, pictures, files, contents and exit status. So it does no harm to configure more boards than are used, or to give wrong sizes for boards that are never seen.",
  "all detections, pairs of descriptions that agree on the boards seen, numbers of cameras and boards, solver results and random choices",
  "relates two runs through every stage of the workflow, for all inputs and all choices of the libraries",
  [S+"McCalib.cpp:Calibration::Calibration, initIntrinsic, calibrate3DObjects, calibrateCameraGroup, merge3DObjects",S+"Board.cpp:Board::Board",S+"Object3D.cpp",S+"Graph.cpp:Graph::connectedComponents"])

p("Where the images are stored has no influence",
  "Two recordings with the same detections, whose image files have other names or lie in other folders, give the same calibration: one succeeds exactly when the other does, and the cameras, objects, object poses, reprojection errors and the mean error are the same, and so is everything in the keypoints file except the paths of the images.",
  "all detections, file names, numbers of cameras and boards, solver results and random choices",
  "relates two runs through every stage of the workflow, for all inputs and all choices of the libraries",
  [S+"McCalib.cpp:insertNewBoard, calibrate3DObjects, calibrateCameraGroup, saveDetectedKeypoints",S+"Frame.cpp"])

p("The sizes of the images matter only for estimating intrinsics",
  "Two recordings with the same detections, whose images have other sizes, give the same calibration if the camera parameters are not estimated from the images (they are read from a file, or there is none to read): one succeeds exactly when the other does, and objects, object poses, reprojection errors and the mean error are the same, and so is everything in the files of cameras and keypoints except the sizes of the images.",
  "all detections, sizes of images, numbers of cameras and boards, solver results and random choices",
  "relates two runs through every stage of the workflow, for all inputs and all choices of the libraries",
  [S+"McCalib.cpp:initializeCalibrationAllCam, saveCamerasParams, saveDetectedKeypoints",S+"Camera.cpp"])

with open("/verif/properties.jsonl","w") as f:
    for x in P: f.write(json.dumps(x)+"\n")
print(len(P))
