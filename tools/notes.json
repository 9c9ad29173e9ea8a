{
 "C02": {
  "status": "proved",
  "note": "The claim is false of the code; proved: the refutation, and that every fresh self edge duplicates the vertex."
 },
 "C04": {
  "status": "proved",
  "note": "The claim is false of the code (refuted); proved instead: minimality for the truncated weights, hence for integer weights."
 },
 "C10": {
  "status": "proved",
  "note": "The claim is false of the code: refuted by a witness; the exact contents of the frame tables are proved instead."
 },
 "C11": {
  "note": "YAML writing/parsing trusted; the assertion is that of a debug build."
 },
 "C06": {
  "status": "proved",
  "note": "The claim is false of the code (refuted by a witness); proved: every board gets the first board's count, correct exactly when marker counts agree."
 },
 "C14": {
  "status": "proved",
  "note": "Index safety and interpolation bounds proved in full; the row-count part is false of the code (refuted, with the exact condition under which it holds)."
 },
 "C20": {
  "status": "proved",
  "note": "Proved for quaternion averaging (SVD and Rodrigues as oracles with stated contracts); for the rotation-vector median the claim is refuted."
 },
 "C15": {
  "note": "solvePnP, projectPoints and shuffles are oracles; real arithmetic."
 },
 "C17": {
  "status": "proved",
  "note": "The claim is false of the code: refuted by a concrete run reaching pose estimation of an object observation with fewer than four points; the stages where it does hold are proved."
 },
 "C28": {
  "status": "proved",
  "note": "The claim is false of the code with two or more objects (refuted); the exact multiplicity is proved."
 },
 "C23": {
  "status": "proved",
  "note": "The claim is false of the code for chains of three or more cameras (groups): refuted by concrete runs. Proved: the exact value given (product in reversed order), and that the claim does hold with at most two members, with equal orientations, for a camera that shares at least two views with the first camera of its group, or for the cameras of a group with a relative pose to the reference group (C23_direct_pairs_are_right_partial)."
 },
 "C44": {
  "status": "proved",
  "note": "The claim is false of the code (two refutations: unrelated groups joined; null dereference). Proved part: when all groups that see a corner are linked with group 0, the second merge is defined and changes nothing."
 },
 "C33": {
  "status": "proved",
  "note": "The claim is false of the code for fewer than six common poses (refuted for every behaviour of the library, also through the workflow); proved safe from six poses on, and for any number with the plain method. Library calls (kmeans, shuffle, uniform_int_distribution) by contract."
 },
 "C34": {
  "status": "proved",
  "note": "The claim is false of the code: the check's verdict is proved independent of the poses, a true solution is rejected and a wrong one accepted, the fall-back returns the identity on exact data. Proved part: exact result when the check happens to pass (C34_small_rotation_partial). The result is always a rigid transform when the solver's is (C34_result_is_rigid)."
 },
 "C35": {
  "status": "proved",
  "note": "Proved: the chosen pair has the maximal number of pairs of simultaneous views, first in index order; poses are stored iff more than three common frames; exactness of the plain method on noise-free data. 'Maximal number of frames' itself is false of the code (refuted)."
 },
 "C45": {
  "status": "proved",
  "note": "The claim is false of the code (refuted by a concrete run whose merge fails); proved when no two object pairs tie (C45_symmetric_without_ties_partial). The refuting run is with use of rotation-vector averaging, which the program always selects (C40)."
 },
 "C25": {
  "note": "AngleAxisRotatePoint of Ceres is modelled; rotations with squared angle in (0, 2.2e-16] are linearised by it and deviate by a proved bound."
 },
 "C42": {
  "note": "Real arithmetic."
 },
 "C47": {
  "note": "ceres::Solve is an oracle: does not move parameters without influence, does not touch intrinsics that are not parameters, does not increase the cost, stops at cost 0."
 },
 "C49": {
  "status": "proved",
  "note": "The claim is false of the code for several groups that share an object with several boards (refuted by a reachable state and a solver that is optimal on every problem). Proved for objects, for groups with fixed boards, for a single group, for any groups no two of which see the same board other than an object's reference board, and that exact calibrations stay. ceres::Solve is an oracle."
 },
 "C36": {
  "status": "proved",
  "note": "The claim is false of the code: refuted (a camera of another group is missing). Proved: the exact contents of the file, completeness with one group, and that every camera of a group other than the first is lost."
 },
 "C37": {
  "status": "proved",
  "note": "Exact contents proved; parts of the claim are false of the code (frame_list of later groups contains frames of earlier ones; a camera seeing two objects is listed twice): refuted."
 },
 "C38": {
  "status": "proved",
  "note": "YAML and decimal printing trusted; real arithmetic. With one group the saved file reloads the same parameters; with several groups it cannot (proved); the stored distortion model is not checked (refuted)."
 },
 "C40": {
  "status": "proved",
  "note": "False of the code for quaternion_averaging (refuted; always off for every parsed file); proved for all other documented keys, plus what a missing key means. cv::FileStorage reading semantics trusted."
 },
 "C41": {
  "status": "proved",
  "note": "Shuffle by its contract (a permutation), OpenCV calibration as oracle. Rejected fisheye boards are not replaced (refuted that a usable board suffices)."
 },
 "C43": {
  "status": "proved",
  "note": "cv::glob listing is an oracle. Also refuted: that images of one frame have the same name."
 },
 "C50": {
  "note": "The claim of the README is refuted (C50_poses_relative_to_reference_camera_refuted): what is proved is what the code saves instead."
 },
 "C52": {
  "note": "At most two cameras, or cameras of equal orientation, or every camera shares two or more views with the first: otherwise the pose chains multiply in the wrong order (C23)."
 },
 "C54": {
  "note": "That the file has all detected corners, as the comment of saveDetectedKeypoints suggests, is refuted."
 },
 "C56": {
  "note": "Pixels of the circles and the colours of objects are not modelled beyond centre and owner; cv::imread is the oracle 'readable', cv::imwrite and the directories are trusted. Contents are sets: a corner is drawn several times when there are several objects (C28)."
 },
 "C57": {
  "status": "proved",
  "note": "Two views are enough for the linear version only, and lens distortion is ignored (refuted)."
 },
 "C58": {
  "note": "File system, images and configuration values are functions of the world; a file that cannot be opened is silently not written, as FileStorage does."
 },
 "C59": {
  "note": "Exactness of OpenCV's PnP, undistortion and single camera calibration are explicit hypotheses (RigSpec, AppSpec); the limits of C52 apply."
 },
 "C60": {
  "note": "The exact-data part is conditional on the same explicit hypotheses on OpenCV as C59; image sizes are not compared."
 },
 "C61": {
  "note": "Python scripts over the reals; NaN and exceptions are distinct outcomes. Exactness of the run as in C59."
 },
 "C62": {
  "note": "\"Every image of the frame counts\" is refuted when a camera sees two objects in one image (C62_average_over_all_entries_refuted)."
 },
 "C63": {
  "note": "\"Every edge is drawn\" and \"objects are drawn in place among the cameras\" are refuted; what is drawn is proved. matplotlib is not modelled: a drawing is its list of segments and points."
 },
 "C64": {
  "note": "OpenCV's hand-eye solver is an oracle that is right where the motion determines the solution (exact_solver); every two sets of cameras must see boards at once often enough (chains of sets are multiplied in the wrong order, C23); limits of C52 apply within each set. C64_application states it for the files the calibrate application writes, with an example run."
 },
 "C65": {
  "note": "What OpenCV draws is an oracle that may throw; the boards are those of OpenCV < 4.7 (see C06 for later versions); CharucoBoard::create is trusted to refuse fewer than two squares or a marker not smaller than its square. The last part of the claim (all boards of boards_index printed) is refuted."
 },
 "C66": {
  "note": "\"Every rotation vector comes back\" is refuted at exactly half a turn. Doubles are real numbers; floats are rounded reals (Flocq's FLT format without the upper limit). cv::Rodrigues from matrix to vector is an oracle (log_ok, log_short), shown to exist. The other models keep poses as matrices, which this property justifies."
 },
 "C67": {
  "note": "Stated for runs whose initial intrinsic parameters are the true ones in both units (read from a file, or cv::calibrateCamera being right on exact data), with the hypotheses of C52. That wrong sizes show in the reported error is refuted by two runs."
 },
 "C55": {
  "note": "The condition on the poses between groups is proved for symmetric tables of poses; C45 says when they are symmetric and refutes that they always are. The condition on the corners is proved without it."
 },
 "C68": {
  "note": "Exact data as in C59 (or C64 through related_cameras); the hypotheses of both runs are the record exact_start of RecordSpec.v."
 },
 "C69": {
  "note": "Stated for the calibration after detection (same inserted observations in both runs); the random choices of the libraries are the same functions in both runs. That the detection reports nothing of a board that is not seen is the library's part."
 }
}