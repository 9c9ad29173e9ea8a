# MC-Calib in Rocq: design and trusted base

The code in /repo is read as text only; nothing of it is built or run.  The model is executable
Gallina (Coq 8.16.1, standard library only), one definition per C++ function or loop, each with a
comment that cites the file and lines it models and says what is simplified.  All Coq files are
under `rocq/theories`:

* `*Model.v` - the model of the code;
* `*Spec.v`  - the vocabulary in which properties are stated (what a table of detections "holds",
  what a "partition" is, what a noise-free rig is ...), independent of the model's helpers;
* `Prop*.v`  - the property theorems `Cnn_...`, each followed by `Print Assumptions`, with
  `Example`s that show a non-trivial case meeting the hypotheses;
* the other files - invariants and proofs.

`properties.jsonl` has the English properties, `MANIFEST.json` maps each to its theorems,
`AXIOMS.md` lists the output of `Print Assumptions` for every theorem, `seeded/LOG.jsonl` logs the
wrong programs the theorems were tested against.  (`tools/` generates the three JSON/MD files.)

## Trusted base

1. Coq's kernel.  `coqchk -o` on all `Prop*` files (and hence everything they use) succeeds and
   reports: no type-in-type, no unsafe fixpoints, no assumed positivity.
2. Axioms, all of the standard library, per theorem in AXIOMS.md:
   * `ClassicalDedekindReals.sig_forall_dec`, `sig_not_dec`, `functional_extensionality_dep` - the
     axioms of the reals `R`;
   * `Classical_Prop.classic` - through lemmas of the real library (and case distinctions in proofs);
   * `ClassicalEpsilon.constructive_indefinite_description` - only in examples and refutations that
     need a concrete oracle (an SVD, a logarithm of rotations, a minimiser) as a *function*; no
     general theorem uses it.
   The graph, board-identifier, table, configuration and file-name theorems need no axioms.
   The development declares none.
3. That the model is the code (below), and that the oracles' contracts are true of the libraries.

## Conventions of the model

* `int` and `size_t` are `nat` or `Z` (unbounded); where a conversion matters it is modelled
  (truncation of the `double` edge weight to `int` in Dijkstra, C04; unsigned indices, C33).
* A point at depth zero has no image in the model (undefined), while cv::projectPoints takes 1 for 1/0 and
  fisheye gives a non-finite value: C37, C56, C58 treat a corner at depth zero as an error.
* `double`/`float` are `R`.  Rounding is not modelled.  Non-finite values are modelled where the
  code tests for them or can make them (`option`/explicit outcome; C13, C12 line fits).
* `std::map` is an association list in strictly increasing key order (`SMap.v`), so that folding
  over it is iterating over it.  Orders that are unspecified in C++ are universally quantified
  (Dijkstra's queue, thread schedules, shuffles).
* Undefined behaviour, failed assertions, exceptions, null dereferences and non-termination are
  distinct outcomes (`None` or a result type), never a default value.  `assert` is as in a debug
  build when a theorem says so.
* Weak pointers are keys in the owning table; shared mutable data (poses and intrinsics that
  several objects point to) is a parameter table (`params`) that all of them read.
* Loops `while (true)`/`for` have structural recursion when bounded by the data, fuel where the code
  has an iteration bound or may not terminate; theorems are for every amount of fuel.

## Oracles (function arguments; every assumption on them is a hypothesis)

| library | argument | assumed where used |
|---|---|---|
| Boost Dijkstra queue | `pick` | picks a queued vertex of minimal key |
| Boost components | - | modelled (depth-first numbering by vertex order) |
| ArUco/ChArUco detection | the list of detections of an image | nothing |
| cv::solvePnP | `rs_env.p3p/refine` | nothing (C15, C16, C39 ...); exact on exact data in general position (C52, C53) |
| cv::projectPoints, fisheye | `rs_env.project` | nothing, or "the camera model of the residuals" (C52) |
| cv::aruco::CharucoBoard | modelled (one marker on every square of one colour; refuses fewer than two squares, or a marker not smaller than its square); drawing: `draw` | nothing |
| std::shuffle, rand | arguments | a permutation / a value in range |
| cv::Rodrigues (matrix to vector) | `lr` | `exp (lr R) = R` for rotations; witness in GeomLog |
| cv::SVD / eigenvectors | `svd` | returns a unit vector of maximal quadratic form; witness C20_svd_exists |
| cv::kmeans | argument | labels in range |
| cv::calibrateHandEye | `calib2`/`he` | nothing, or exact on exact data (C35) |
| cv::calibrateCamera, fisheye | argument | nothing |
| ceres::Solve | `solve` | `ceres`: parameters without residuals do not move, intrinsics not among the parameters do not change, cost does not increase, at cost 0 nothing moves |
| cv::FileStorage, glob, imread, imwrite | lists of entries / files | reads back what was written; listing given |
| threads | interleavings | each insertion is atomic (the code holds a mutex) |

## What is modelled

| code (McCalib/src unless given) | file |
|---|---|
| Graph.cpp, Graph.hpp (all) | GraphModel |
| utilities.cpp (board creation, both OpenCV versions), Board.cpp constructor | BoardModel |
| create_charuco_boards.cpp, utilities.cpp createCharucoBoardsImages | CreateModel |
| McCalib.cpp constructor 24-135 (configuration), detectBoards 140-170, boardExtraction 219-226, detectBoardsWithCamera 234-262 | InputModel |
| detectBoardsInImageWithCamera 270-366, calcLinePara, point_refinement.h | DetectModel |
| insertNewBoard 594-642, Frame/CameraObs/Board/Camera insertion, load/saveDetectedKeypoints 172-213, 493-548 | DataModel |
| ransacP3P, ransacP3PDistortion, BoardObs/Object3DObs estimatePose and reprojection errors | RansacModel |
| geometrytools.cpp: poses, median, quaternions, averaging; initInterTransform | GeomModel |
| geometrytools.cpp: triangulateNViewLinearEigen, ransacTriangulation | TriangModel |
| pair poses of boards/cameras/groups/objects, graphs, path loops | ChainModel |
| init3DObjects, init3DObjectObs, mergeObjects, mergeAllObjectObs, save3DObj | ObjectsModel |
| initCameraGroup, initCameraGroupObs, mergeCameraGroup, mergeAllCameraGroupObs, computeAllObjPoseInCameraGroup, CameraGroup(Obs).cpp | GroupModel |
| findPairObjectForNonOverlap, initNonOverlapPair, findPoseNoOverlapAllCamGroup, handeyeCalibration, handeyeBootstratpTranslationCalibration | HandEyeModel |
| Camera.cpp 23-145 and saveCamerasParams, initIntrinsic from file | CameraModel |
| Camera.cpp 162-262 (initial intrinsics, fisheye border) | IntrinsicModel |
| OptimizationCeres.h (five functors), refine functions of Camera, Object3D, CameraGroup, computeAvgReprojectionError | ResidualModel |
| save3DObjPose, saveReprojectionErrorToFile | FileModel |
| saveReprojectionImages, saveDetectionImages | ImagesModel |
| stages 2085-2143 and calibrate.cpp 9-85 | StageModel, PipelineModel, WorkflowModel, AppModel |
| computeReproErrAllBoard, computeReproErrAllObject, reproErrorAllCamGroup: whether they return | LogModel |
| calibrate.cpp main 87-105 | AppModel |
| pose accessors of BoardObs, Object3DObs, Object3D, CameraGroup, CameraGroupObs; vectorProj, ProjToVec | AccessModel |
| python_utils: compute_pose_error_vs_gt, compute_error_statistic, display_*, post_calibration_analysis | AnalysisModel |

## What is not modelled

Image contents and ArUco detection, solver internals, YAML text syntax and decimal printing (values
are written and read back unchanged), the contents of the log (the functions that compute errors only
for the log are modelled as far as they can end the run, LogModel), `displayBoards` windows, the storage of a pose as six numbers
(a pose is one value in the models of the stages; AccessModel models the storage, and C66 justifies this),
floating-point rounding (except the conversions to float, C66), memory exhaustion, integer overflow, matplotlib (python_utils is modelled down to the points and segments drawn), the Blender data.
Pixels of drawn circles are modelled as centre and owner only (C56).

## Per property

| id | modelled | how proved |
|----|----------|-------|
| C01, C02 | graph state and operations | invariant over histories of calls; components = reachability classes; witness for the self edge |
| C03, C04 | Dijkstra with arbitrary tie-breaking, `int` accumulation, predecessor walk | loop invariant; minimality for truncated weights; witness against real weights |
| C05, C06 | identifiers of both OpenCV versions | induction over boards; witness for different sizes |
| C07 | Board constructor | div/mod arithmetic |
| C08-C10 | insertNewBoard and its tables; schedules as interleavings | invariant over insertion lists; permutation; witness |
| C11 | keypoints writer then reader | round trip; then `C11_save_then_load` on tables; PropEntering.v: which files are taken at all |
| C12-C14 | acceptance, refinement loop, interpolation reads | case analysis, loop invariant, real arithmetic |
| C15, C16 | RANSAC loop | loop invariant; best consensus over all iterations run |
| C17 | estimatePose calls of all stages | invariant; witness for objects |
| C18-C21 | median, quaternions, averaging, rigid poses | sorting; `nsatz`/`nra`; permutation invariance |
| C22-C24, C29 | pair poses and chains | induction on paths; witnesses for the order of products |
| C25 | five residual functors | each equals the reference projection |
| C26-C28, C30-C32 | objects, groups, observations, merges | invariants of the whole stage (`calib_ok`, `reached`) |
| C33-C35, C45 | hand-eye | case analysis on sizes; exactness by uniqueness; witnesses |
| C36-C38 | result files | exact contents; witnesses |
| C39, C50, C51 | the whole workflow | invariant `good` carried through nine stages |
| C40, C43 | configuration and image names | per key; decimal numbering injective/ordered |
| C41 | fisheye border rule, subset | list lemmas |
| C42, C46-C49 | optimisation problems and the reported error | residual blocks = reported errors; solver contract; separable problems; witness for shared objects |
| C44 | second merge | witnesses; exact condition |
| C52, C53 | noise-free / partly wrong detections through the whole run | truth invariant through every stage; RANSAC robustness |
| C54 | keypoints saved after a run | provenance of every remaining corner |
| C55 | which runs complete | totality of every stage from counts of corners left; the log steps filter the run and pass except for boards without corners |
| C56 | saved pictures | contents as sets |
| C57 | robust triangulation | loop invariant, exactness from null space, witness |
| C58 | main() as a trace of effects | prefix-closed trace; per-step totality; PropEntering.v: what is taken from the images, through the configuration |
| C59 | the whole application on exact data | C52 with the sizes of images factored out (Sizes.v), C58, C41 |
| C60 | two runs of the application, the second from the saved files | C59 twice; detections transferred along the saved keypoints (C11, C54) |
| C61 | python_utils/compute_pose_error_vs_gt.py over the reals (AnalysisModel.v), post_calibration_analysis.py | trace of a rotation vector's matrix (acos∘cos), report zero iff agreement, and every number an average of per-camera differences (PropAverage.v); C59 and C36 for whole runs |
| C62 | compute_error_statistic.py on the error file of FileModel.v | C37's contents of the file, means as `average`; counterexample for two objects in an image |
| C63 | display_*.py: the segments and points drawn | the 23 segments of the wire frame one by one under a rigid motion; C59's files for whole runs; two counterexamples |
| C64 | noise-free rigs of any number of sets of cameras without a common view, any two of which see boards at once (ApartSpec.v) | uniqueness of the hand-eye solution from the motion (C34), the pairs of objects seen at once (ApartProofs.v), then the truth invariant of C52 through the merge of the groups; files of the application (PropMotion.v) |
| C65 | the board generator as a trace of effects; its images are an oracle of the board and the size | case analysis of the run, the boards of C05, injectivity of the decimal names; witness for boards_index |
| C66 | the pose accessors as steps on six reals, alone or in a map with operator[]; float conversions rounded by Flocq's FLT format | the last setter decides, by induction on the history; the rotation vector below half a turn is determined by trace and skew part |
| C67 | two runs of the model of the workflow on the same detections, with boards of other size | the hypotheses of C52 hold of the enlarged rig (perspective images do not change), so both runs are exact; witness: two runs with error zero |
| C68 | two runs of the model of the application in different worlds, with different libraries and configurations | corollary of C59 with the true cameras (objects) eliminated: both files hold the relative poses of the rig, which do not depend on world coordinates; example: two configurations |
| C69 | the whole workflow (`calibrate`, `calibrate_logged`) for two descriptions of the boards: numbers of boards nb, nb' and corners bpts, bpts' that agree on the boards that were inserted | relation between the two runs kept by every stage: same parameters and calibration state, tables equal except for unobserved boards, and every board of every object was observed (components of the board graph are observed boards; merging only moves boards of objects); saved files then agree; for the application (`main`, two configurations, keypoints from a file) all events and the status agree; examples: one board against three |
| C70 | the whole workflow for two lists of insertions that differ in the paths of the images | the relation of C69 ignores the paths kept in the frames; insertion keeps it; the saved keypoints agree when the paths are erased; example: the rig with its images elsewhere |
| C71 | the whole workflow for two tables of detections that differ in the sizes kept with the cameras, camera parameters from a file | every stage commutes with the replacement of the cameras' sizes (Sizes, LogSizes); reading from a file uses the camera numbers only; example: the two-camera rig without sizes and with 640 x 480 |

Theorems whose name ends in `_partial` belong to properties whose full claim is *false of the code*
(the refutation is proved next to them); they state the part that does hold.

## Findings (claims that are false of the code, with a machine-checked witness)

* C02: an edge from a new vertex to itself creates the vertex twice.
* C04: edge weights 1/n are truncated to `int`, so all n >= 2 cost 0: not the shortest path.
* C06: with OpenCV >= 4.7 every board gets the marker count of the first board.
* C10: the frame lists of cameras/boards miss frames seen before by another camera.
* C14: the interpolated patch can have fewer rows than asked for.
* C17: pose estimation of an object is called with fewer than four points.
* C20: the componentwise median of rotation vectors (always used, C40) depends on the sign branch.
* C23: chains of three or more cameras multiply the poses in the wrong order.
* C28: after merging, object observations are stored once per object.
* C33: hand-eye bootstrap with fewer than six common frames is undefined behaviour.
* C34: its acceptance check does not depend on the poses; the fall-back returns the identity.
* C35: the pair of objects maximises pairs of views, not frames.
* C36: cameras of groups other than the first are not saved.
* C37: frame lists of later groups contain frames of earlier ones; cameras listed twice.
* C38: the distortion type of a loaded file is not compared with the configuration.
* C39: a missing cam_params file is logged and the run goes on with unset intrinsics.
* C40: the key is read as `quaternion_averaging:` (stray colon), so the option is always off.
* C41: fisheye boards rejected at the border are not replaced by others.
* C44: merging the groups a second time can join unrelated groups or dereference null.
* C45: relative group poses may be stored for one order only; the merge then crashes.
* C49: groups that share an object undo each other's refinement of its boards.
* C50: saved object poses are per camera group observation and unrefined, not as in the README.
* C54: the keypoints file has only the corners left after outlier removal.
* C55: an image with one to three corners left of an object makes the run undefined; a board of a
  perspective camera that loses all its corners ends the run in the computation of errors for the log
  (cv::projectPoints throws on an empty list).
* C58: a save path ending in a slash is not created, unopened files are ignored, and 0 is returned with
  nothing saved; a camera file named like another result is overwritten.
* C59: a missing camera parameter file is logged as fatal, but the run goes on with uninitialised intrinsics.
* C57: robust triangulation from two or three views reads past the end of an array; lens distortion is
  ignored.
