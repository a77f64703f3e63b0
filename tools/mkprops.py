#!/usr/bin/env python3
"""Writes properties.jsonl from the table below (source of truth for the English claims)."""
import json
P=[]
def p(id,title,statement,quantifier,why,anchors):
    P.append(dict(id=id,title=title,statement=statement,quantifier=quantifier,why_tests_cant=why,anchors=anchors))

# ---------------------------------------------------------------- avoidance library
p("C01","A direction always maps to an existing histogram cell",
 "polarToHistogramIndex returns an azimuth index in [0, 360/res) and an elevation index in [0, 180/res) for every polar point, including angles that are NaN, infinite or astronomically large, so that using the result to index a histogram of that resolution is never out of bounds.",
 "every single-precision polar point (NaN and infinities included), every resolution 1..180 and every behaviour of an out-of-range float-to-int conversion",
 "2^64 angle pairs, rounding at bin borders and the unspecified result of converting NaN to int cannot be sampled exhaustively",
 ["avoidance/src/common.cpp:polarToHistogramIndex","avoidance/src/common.cpp:wrapPolar"])
p("C02","Cell centre round trip",
 "Converting a histogram cell to the polar direction of its centre and back yields the same cell, and the centre assigned to any direction is at most half a cell away from it in both angles.",
 "every cell of every resolution; every real direction","the first half is a finite but large product of cells and resolutions, the second half ranges over all reals",
 ["avoidance/src/common.cpp:histogramIndexToPolar","avoidance/src/common.cpp:polarToHistogramIndex"])
p("C03","Angle wrapping is a canonical representative",
 "wrapAngleToPlusMinus180 / wrapAngleToPlusMinusPI return an angle in [-180,180) (resp. [-pi,pi)) that differs from the argument by a whole number of turns, so wrapping twice changes nothing.",
 "every real angle (ideal arithmetic) and every finite float (as executed)","range is uncountable; rounding only fails on isolated floats next to the half turn",
 ["avoidance/src/common.cpp:wrapAngleToPlusMinus180","avoidance/src/common.cpp:wrapAngleToPlusMinusPI"])
p("C04","Wrapping a polar point keeps its direction",
 "wrapPolar leaves the cartesian point denoted by a polar point unchanged while bringing elevation into [-90,90] and azimuth into [-180,180].",
 "every real elevation, azimuth and radius","trigonometric identity over the reals",
 ["avoidance/src/common.cpp:wrapPolar","avoidance/src/common.cpp:polarHistogramToCartesian"])
p("C05","Cartesian/polar conversions are mutually inverse",
 "In the histogram convention, converting a cartesian point to polar coordinates and back returns the point; converting a proper polar point (r>0, |e|<90, -180<z<=180) to cartesian and back returns it in the histogram convention.",
 "every point and every origin over the reals","identity over all reals, several atan2 quadrants",
 ["avoidance/src/common.cpp:cartesianToPolarHistogram","avoidance/src/common.cpp:polarHistogramToCartesian"])
p("C06","Angle differences are shortest signed/unsigned differences",
 "angleDifference(a,b) lies in [-180,180) and is congruent to a-b modulo 360; indexAngleDifference(a,b) is symmetric and equals the circular distance between a and b whenever both are canonical angles.",
 "all pairs of real angles","all reals",
 ["avoidance/src/common.cpp:angleDifference","avoidance/src/common.cpp:indexAngleDifference"])
p("C07","Camera attribution of a direction",
 "isInWhichFOV reports a camera exactly when one and only one camera's horizontal field of view contains the direction and then returns that camera's index, otherwise it reports failure with index -1; isOnEdgeOfFOV reports exactly a camera that isInWhichFOV reports and whose border on the direction's side is not continued by another camera (three degrees beyond it no camera sees); scaleToFOV is in [0,1], is 0 outside every field of view and 1 strictly inside overlapping ones.",
 "every list of cameras and every direction","unbounded camera lists and all directions",
 ["avoidance/src/common.cpp:isInWhichFOV","avoidance/src/common.cpp:isOnEdgeOfFOV","avoidance/src/common.cpp:scaleToFOV"])
p("C08","Field-of-view membership is independent of the heading convention",
 "pointInsideFOV holds exactly for directions whose azimuth is within half the horizontal opening of the camera axis measured on the circle (and elevation within half the vertical opening), wherever the camera points.",
 "every camera yaw/opening and every canonical direction","only cameras whose view straddles +-180 degrees misbehave",
 ["avoidance/src/common.cpp:pointInsideFOV","avoidance/src/common.cpp:pointInsideYawFOV"])
p("C09","Point cloud sanitising keeps exactly the finite points",
 "removeNaNAndGetMaxima leaves in the cloud exactly the points with three finite coordinates, in their original order, sets width to their number, and returns, in the order +x,+y,+z,-x,-y,-z, a point of that cloud extreme in that direction (an extreme is omitted only if no point lies within the +-9999 m sentinel in that direction).",
 "every cloud of every size with arbitrary NaN/infinity placement","unbounded size and placement of invalid points",
 ["avoidance/src/common.cpp:removeNaNAndGetMaxima"])
p("C10","The estimated field of view never shrinks",
 "Whatever sequence of clouds is fed to updateFOVFromMaxima, the horizontal and vertical openings of the camera never decrease, and the heading/pitch only change in a step in which the respective opening grows; then the opening is the horizontal/vertical spread of the points fed in (the shorter way round), the camera's axis is in their middle, and points that lie within half a circle are all inside the new field of view.",
 "every history of clouds","history property",
 ["avoidance/src/common.cpp:updateFOVFromMaxima"])
p("C11","Trajectory messages declare exactly the points that carry data",
 "A waypoint trajectory message marks point 1 valid and points 2-5 invalid with every unused field NaN; a Bezier message marks all five points valid and carries the duration in the fifth horizon; the yaw rate sign is flipped.",
 "every pose, velocity, control polygon and duration","all values",
 ["avoidance/src/common.cpp:transformToTrajectory","avoidance/src/common.cpp:transformToBezier","avoidance/src/common.cpp:fillUnusedTrajectoryPoint"])
p("C12","NED/ENU conversions are involutions",
 "Converting a position, a yaw (in degrees and radians) or an orientation from ENU to NED and back is the identity (orientation exactly as a quaternion, yaw up to whole turns).",
 "every position, yaw and quaternion over the reals","all reals",
 ["avoidance/include/avoidance/common.h:toNED","avoidance/include/avoidance/common.h:toENU","avoidance/include/avoidance/common.h:yawToNEDdeg","avoidance/src/common.cpp:orientationToNED","avoidance/src/common.cpp:orientationToENU"])
p("C13","Yaw rate command turns the short way round",
 "getAngularVelocity returns half of an angle that is congruent to desired minus current yaw modulo a full turn, and of magnitude at most pi (so |command| <= pi/2), when the current yaw is canonical.",
 "every desired yaw and every canonical current yaw over the reals","all reals",
 ["avoidance/src/common.cpp:getAngularVelocity"])
p("C14","Changing histogram resolution is lossless and guarded",
 "upsample followed by downsample restores every cell; upsample copies each coarse cell to its four children; downsample stores the average of the four children; both throw on the wrong resolution and leave the histogram untouched.",
 "every histogram content","content is a matrix of arbitrary reals",
 ["avoidance/src/histogram.cpp:upsample","avoidance/src/histogram.cpp:downsample"])
p("C15","Histogram reads wrap around, writes are stored where they are read",
 "Reading a distance at indices offset by whole turns returns the same value, a read after a write of an in-range cell returns the written value and all other cells are unchanged, and isEmpty is true exactly if every cell is zero-ish (not above the smallest positive float).",
 "every index pair and every write history","unbounded integer indices and histories",
 ["avoidance/include/avoidance/histogram.h:get_dist","avoidance/include/avoidance/histogram.h:set_dist","avoidance/src/histogram.cpp:isEmpty","avoidance/include/avoidance/histogram.h:wrapIndex"])
p("C16","Transform history stays sorted and bounded in time",
 "After any sequence of insertions and lookups every stored transform sequence is strictly increasing in time and spans no more than the configured duration; an insertion is accepted exactly if it is newer than everything stored for that frame pair; other frame pairs are unaffected.",
 "every history of insertions with arbitrary (also decreasing, duplicate) stamps","history property over unbounded stamps",
 ["avoidance/src/transform_buffer.cpp:insertTransform"])
p("C17","A transform is only interpolated between two stored neighbours around the requested time",
 "getTransform succeeds exactly when the buffer for that pair contains a transform at or after the requested time and another at or before it; on success the answer is the interpolation of two adjacent stored transforms that bracket the requested time (the stored one if the time matches) and is stamped with the requested time; it never extrapolates.",
 "every history and every query time","history property",
 ["avoidance/src/transform_buffer.cpp:getTransform","avoidance/src/transform_buffer.cpp:interpolateTransform"])
p("C18","Different frame pairs never share a transform history",
 "Two different (source,target) frame pairs use different histories, so inserting for one pair is never visible through another.",
 "all pairs of frame names","only frame names containing a particular substring collide",
 ["avoidance/src/transform_buffer.cpp:getKey"])
p("C19","State machine steps follow the transition table",
 "One step of the state machine runs exactly the current state's action once and then moves to the table's successor for the produced transition; REPEAT never changes state; a transition the table does not define leads to the error state.",
 "every state machine table and every sequence of transitions","all tables, all runs",
 ["avoidance/include/avoidance/usm.h:iterateOnce"])
p("C20","Failsafe status from data freshness",
 "checkFailsafe reports termination exactly when data has been missing longer than the termination timeout after start, otherwise commands hover with critical status exactly when data has been missing longer than the critical timeout after start, and otherwise leaves hover untouched and reports active only if not hovering.",
 "every elapsed-time pair and prior status","all real durations and boundary equality",
 ["avoidance/src/avoidance_node.cpp:checkFailsafe"])
p("C21","Autopilot parameters mirror the last value received for each name",
 "After any sequence of parameter messages the stored value of each known parameter is the last one received for its name (initial value if none), unknown names change nothing and no parameter is affected by another's message.",
 "every history of parameter messages","history property",
 ["avoidance/src/avoidance_node.cpp:px4ParamsCallback"])
p("C22","Mission speed selection",
 "On a mission update the mission speed becomes the speed of the closest preceding ground-speed change item of the current item, if any with positive speed, and is otherwise unchanged.",
 "every mission item list and current index","unbounded lists",
 ["avoidance/src/avoidance_node.cpp:missionCallback"])

# ---------------------------------------------------------------- local planner
p("C23","The processed cloud has at most one point per histogram cell and only sensible points",
 "After processPointcloud every fresh point in the output is a point of one of the input clouds with finite coordinates at a distance strictly between the minimum and maximum sensor range, its cell contains at least min_num_points_per_cell such points, and no two points of the output fall in the same (2x finer) cell.",
 "every set of input clouds, previous output and parameters","unbounded clouds",
 ["local_planner/src/nodes/planner_functions.cpp:processPointcloud"])
p("C24","Remembered points expire, and are dropped where the camera currently looks",
 "A point kept from the previous cycle is outside every camera's field of view, within maximum range, in a cell with no fresh point, has age grown by exactly the elapsed time and below max_age; hence a point not re-observed is gone after max_age.",
 "every history of cycles","history property",
 ["local_planner/src/nodes/planner_functions.cpp:processPointcloud"])
p("C25","Histogram cells hold the mean obstacle distance",
 "generateNewHistogram stores in each cell the arithmetic mean of the distances of exactly the cloud points whose direction falls in that cell, and zero in all other cells.",
 "every cloud, position","unbounded clouds",
 ["local_planner/src/nodes/planner_functions.cpp:generateNewHistogram"])
p("C26","Compressed histogram and obstacle distance message report the nearest obstacle per azimuth",
 "Each entry of the obstacle distance scan is the minimum obstacle distance over the elevation rows considered for that azimuth, 'beyond max range' if no obstacle, and NaN exactly if no camera covers the azimuth; entries are rotated consistently with the declared start angle.",
 "every histogram, FOV set, yaw","all contents",
 ["local_planner/src/nodes/planner_functions.cpp:compressHistogramElevation","local_planner/src/nodes/local_planner.cpp:updateObstacleDistanceMsg"])
p("C27","Candidate selection returns the cheapest directions",
 "For n >= 1 getBestCandidatesFromCostMatrix returns exactly min(n, number of cells) candidates, they are the n cheapest cells of the cost matrix and are sorted by increasing cost.",
 "every cost matrix without undefined costs and every n>=1","all matrices, ties",
 ["local_planner/src/nodes/planner_functions.cpp:getBestCandidatesFromCostMatrix"])
p("C28","Polar padding matches the sphere",
 "padPolarMatrix surrounds the matrix such that every padded cell equals the cell of the original matrix that is reached by walking on the sphere (azimuth wraps; crossing a pole reflects elevation and rotates azimuth by 180 degrees), for every padding up to the matrix height.",
 "every matrix, every even width, every padding size","all sizes",
 ["local_planner/src/nodes/planner_functions.cpp:padPolarMatrix"])
p("C29","Every cell of the cost matrix is filled",
 "After getCostMatrix's interpolation every cell of the matrix is either directly evaluated or interpolated between its neighbouring evaluated cells, for every step size the code uses; no cell is left at its initial value.",
 "all matrices","all matrices",
 ["local_planner/src/nodes/planner_functions.cpp:getCostMatrix"])
p("C30","The cost of a direction is non-negative and decreases with obstacle distance",
 "costFunction's obstacle term is non-negative and bounded, is zero if there is no obstacle in the cell, and never increases when the obstacle is farther; away from the goal position every other term is non-negative.",
 "all real inputs and non-negative parameters","all reals",
 ["local_planner/src/nodes/planner_functions.cpp:costFunction"])
p("C31","The look-ahead tree is a tree and its size is bounded",
 "After buildLookAheadTree every node other than the root has a parent with a smaller index and depth one less, the number of nodes is at most 1 + n_expanded_nodes * children_per_node, at most n_expanded_nodes nodes are closed, no node is closed twice.",
 "every obstacle field, goal, parameter setting","all inputs, unbounded parameters",
 ["local_planner/src/nodes/star_planner.cpp:buildLookAheadTree"])
p("C32","The path returned by the look-ahead planner is a root path",
 "The returned path is the chain of parents of one tree node, ends at the vehicle's current position, its extraction always terminates, and consecutive nodes are one tree edge apart.",
 "every tree the planner can build","all inputs",
 ["local_planner/src/nodes/star_planner.cpp:buildLookAheadTree"])
p("C33","The setpoint followed lies on the planned path",
 "When getSetpointFromPath succeeds, the setpoint lies on a segment between two consecutive path nodes; it fails for paths with fewer than two nodes and once the path has been flown through.",
 "every path, elapsed time and speed","all paths",
 ["local_planner/src/nodes/planner_functions.cpp:getSetpointFromPath"])
p("C34","Commanded cruise speed never exceeds what the sensor range allows",
 "Once the autopilot's acceleration and jerk limits are known and positive, the cruise speed in the planner output never exceeds the configured cruise velocity (limited by the mission) nor the speed from which the vehicle can stop within the sensor range under the autopilot's acceleration and jerk limits.",
 "all parameter values","all reals",
 ["local_planner/src/nodes/local_planner.cpp:getAvoidanceOutput","local_planner/include/local_planner/trajectory_simulator.h"])
p("C35","Simulated trajectories respect the vehicle limits",
 "Every step of a simulated trajectory applies a jerk no larger than the jerk limit, follows exact constant-jerk kinematics, advances time by a positive amount not exceeding the step, never accelerates beyond the acceleration limit if it starts within it, and generate_trajectory returns exactly the number of states requested by the duration.",
 "all start states, directions, limits, durations","all reals, unbounded steps",
 ["local_planner/src/utils/trajectory_simulator.cpp"])
p("C36","Waypoint generator only makes the documented transitions",
 "The local waypoint generator starts loitering, moves between following the path, changing altitude, loitering and direct flight only along its documented transitions in one control step, and a reset request always leads back to loiter.",
 "every sequence of inputs","all histories",
 ["local_planner/src/nodes/waypoint_generator.cpp:chooseNextState","local_planner/include/local_planner/waypoint_generator.h"])
p("C37","Loiter holds one position",
 "While the waypoint generator stays in loiter, the target position it produces is constant and equals the vehicle position at loiter entry.",
 "every loiter episode of every length","history property",
 ["local_planner/src/nodes/waypoint_generator.cpp:runLoiter"])
p("C38","Invalid (NaN) paths never steer the vehicle",
 "A planner output whose setpoint contains NaN never becomes the goto position of the vehicle.",
 "every planner output","NaN propagation",
 ["local_planner/src/nodes/waypoint_generator.cpp:runTryPath"])
p("C39","Speed adaptation never overshoots the goal",
 "The adapted goto position is in the direction of the requested one, at most the commanded speed away from the vehicle, and the commanded speed never exceeds the distance to the goal.",
 "all positions and goals over the reals","all reals",
 ["local_planner/src/nodes/waypoint_generator.cpp:adaptSpeed"])
p("C40","Altitude changes requested by the mission are executed in both directions",
 "When the autopilot mission requests takeoff/return altitude changes, the generator climbs when below and descends when above the goal altitude.",
 "every altitude pair","all values",
 ["local_planner/src/nodes/waypoint_generator.cpp:isAltitudeChange"])
p("C41","Setpoints are only emitted while the system is active",
 "The local planner node publishes setpoints exactly in control cycles whose status is active; a stale sensor pipeline therefore stops setpoints and reports critical or terminating status.",
 "every schedule of sensor and control events","history/schedule property",
 ["local_planner/src/nodes/local_planner_nodelet.cpp:cmdLoopCallback","avoidance/src/avoidance_node.cpp:checkFailsafe"])
p("C42","Planner uses a complete, consistent set of camera clouds",
 "The planner is fed only when every camera's latest cloud has been transformed since the last feed, each received cloud is consumed at most once, and no cloud is overwritten while flagged as awaiting transformation for less than the timeout.",
 "every interleaving of cloud arrivals, transformations and planner steps","schedules",
 ["local_planner/src/nodes/local_planner_nodelet.cpp:pointCloudCallback","local_planner/src/nodes/local_planner_nodelet.cpp:updatePlanner"])

# ---------------------------------------------------------------- safe landing planner
p("C43","A point inside the landing grid always has a valid cell",
 "Whenever isInsideGrid accepts a point, the computed cell indices are valid for the grid's matrices.",
 "every point, centre, grid and cell size","all reals, non-divisible sizes",
 ["safe_landing_planner/src/nodes/safe_landing_planner.cpp:computeGridIndexes","safe_landing_planner/src/nodes/safe_landing_planner.cpp:isInsideGrid"])
p("C44","Running mean and variance equal the batch statistics",
 "After any sequence of points in a cell the incrementally computed height mean and variance are the mean and variance of exactly those heights, hence variance is never negative; other cells are unaffected.",
 "every sequence of heights","unbounded sequences",
 ["safe_landing_planner/src/nodes/safe_landing_planner.cpp:computeOnlineMeanVariance"])
p("C45","A cell is landable only with enough flat evidence",
 "A grid cell is published as landable exactly if enough cells of its smoothing window have sufficient points and small height spread and fewer neighbouring cells than the configured number (at least one) have a strongly different mean height.",
 "every grid content, every min_n_land_cells >= 0 and max_n_mean_diff_cells >= 1","all matrices, parameter corner cases",
 ["safe_landing_planner/src/nodes/safe_landing_planner.cpp:isLandingPossible"])
p("C46","Landing only after a positive evaluation",
 "The landing state machine enters the landing descent only through an evaluation of the grid below the vehicle that judged the area landable, and the only way out of landing is a reset.",
 "every sequence of inputs","all histories",
 ["safe_landing_planner/src/nodes/waypoint_generator.cpp:chooseNextState","safe_landing_planner/src/nodes/waypoint_generator.cpp:runEvaluateGrid"])
p("C47","Patch evaluation requires every masked cell to be landable",
 "The area below the vehicle is judged landable exactly if every cell of the disc-shaped patch passed the hysteresis; hysteresis values stay in [0,1].",
 "every grid and history of grids","all matrices, histories",
 ["safe_landing_planner/src/nodes/waypoint_generator.cpp:evaluatePatch","safe_landing_planner/src/nodes/waypoint_generator.cpp:landingAreaHeightPercentile"])
p("C48","The search pattern spirals outwards forever",
 "Successive exploration goals visit the eight compass offsets in order around the first rejected site with a radius factor growing by one after each full round, so no offset is visited twice.",
 "every number of rejections","unbounded histories",
 ["safe_landing_planner/src/nodes/waypoint_generator.cpp:runGoTo"])
p("C49","Height percentile reads an existing sample",
 "The landing-area height percentile is always one of the sampled means, read at a valid position, for every smoothing window size from 1 to the largest the configuration allows and every grid at least as large as the window.",
 "every window size >= 1 and grid","corner parameter values",
 ["safe_landing_planner/src/nodes/waypoint_generator.cpp:landingAreaHeightPercentile"])
p("C50","A published landing setpoint is marked valid only if it carries a vertical target",
 "The first trajectory point is flagged valid exactly if each axis has a finite position or a finite velocity.",
 "every setpoint with arbitrary NaN placement","NaN placement",
 ["safe_landing_planner/src/nodes/waypoint_generator_node.cpp:publishTrajectorySetpoints"])

# ---------------------------------------------------------------- global planner
p("C51","Cells tile space",
 "Every point lies in the cell computed for it, within half a cell of its centre in each axis; converting a cell to its centre point and back returns the same cell; the neighbour relation is symmetric.",
 "every real point and integer cell","all reals",
 ["global_planner/src/library/cell.cpp","global_planner/include/global_planner/cell.h"])
p("C52","A returned global path is a legal chain from start to goal",
 "When the search succeeds, the returned path starts at the start, ends in a cell within the goal radius, and each consecutive pair of nodes was produced as a neighbour and judged legal; the search always terminates within the iteration bound.",
 "every map, start, goal and iteration bound","all graphs",
 ["global_planner/include/global_planner/search_tools.h:findSmoothPath"])
p("C53","Path simplification preserves endpoints and never invents cells",
 "simplifyPath returns a path with the same first and last cell whose cells all occur in the original path in the same order, for every iteration limit; it terminates.",
 "every path","all paths and risk oracles",
 ["global_planner/include/global_planner/search_tools.h:simplifyPath"])
p("C54","Path smoothing keeps endpoints and stays in the hull",
 "A quadratic Bezier with three control points starts at the first, ends at the last, and every coordinate stays within the range of the control coordinates; smoothing keeps first and last pose.",
 "all control points, step counts","all reals",
 ["global_planner/include/global_planner/bezier.h","global_planner/include/global_planner/search_tools.h:smoothPath"])
p("C55","Risk is a probability and the altitude prior is clamped",
 "The posterior of two probabilities is in [0,1) and increases with both; the altitude prior used for heights below/above the table is the first/last entry.",
 "all probabilities and all integer heights","all reals/integers; unsigned comparison corner",
 ["global_planner/include/global_planner/common.h:posterior","global_planner/src/library/global_planner.cpp:getAltPrior"])
p("C56","Backing up follows the recorded trail",
 "The recorded trail contains no consecutive duplicate cells and once the vehicle has a position, backing up returns a path along previously visited cells starting at the current one.",
 "every pose history","history property",
 ["global_planner/src/library/global_planner.cpp:setPose","global_planner/src/library/global_planner.cpp:goBack"])
p("C57","Published paths have one pose per path cell",
 "The path message has exactly one pose per path cell, in order, positioned at the cell centre.",
 "every path","all paths",
 ["global_planner/src/library/global_planner.cpp:getPathMsg"])
p("C58","Goals are served in order",
 "Goals given as a list are served in the given order, an intermediate goal is served before and never instead of the goal it precedes; every goal that is set is announced when it is set, an intermediate one only as temporary.",
 "every sequence of goal operations","histories",
 ["global_planner/src/nodes/global_planner_node.cpp:popNextGoal","global_planner/src/nodes/global_planner_node.cpp:setIntermediateGoal"])
p("C59","The global planner's setpoint never jumps",
 "The setpoint published by the global planner lies on the straight line from the vehicle towards the current goal, at most max(1, speed) away; the speed stays between default and maximum speed; its heading is the one of the goal pose.",
 "every position, goal, risk","all reals",
 ["global_planner/src/nodes/global_planner_node.cpp:publishSetpoint"])
p("C60","Search cost bookkeeping",
 "Edge costs are non-negative, the pure distance heuristics never overestimate in an empty map for moves between neighbouring cells of at least one metre, and equality of search nodes agrees with their hash.",
 "all cells and parameters","all integers/reals",
 ["global_planner/src/library/global_planner.cpp:getEdgeCost","global_planner/include/global_planner/node.h"])

p("C61","FCU-convention polar conversions are mutually inverse",
 "Converting a cartesian point to polar coordinates in the FCU convention and back returns the point.",
 "every point and origin over the reals","identity over all reals",
 ["avoidance/src/common.cpp:cartesianToPolarFCU","avoidance/src/common.cpp:polarFCUToCartesian"])

p("C62","The cost image addresses every cell and channel exactly once",
 "The published cost image has three bytes per histogram cell; the accessor used by readers of the image (colorImageIndex) maps distinct (elevation, azimuth, channel) triples to distinct valid positions, and the byte found there is the scaled obstacle cost, the scaled other cost and zero respectively; every byte written is in 0..255 even for NaN or infinite costs.",
 "all cost matrices (all floats), all cells and channels","matrix contents are unbounded; the off-by-one in the mirrored row index is only visible on whole images",
 ["local_planner/src/nodes/planner_functions.cpp:generateCostImage","local_planner/src/nodes/planner_functions.cpp:colorImageIndex"])
p("C63","Smoothing spreads obstacles and never hides one",
 "smoothPolarMatrix returns for each cell the conically weighted sum over the neighbourhood on the sphere (wrapping azimuth, crossing poles); the result is never below the original obstacle cost of the cell, and an obstacle within the smoothing radius makes the cost of every cell around it positive.",
 "all non-negative matrices with an even number of columns and all radii up to the number of rows","all reals, all radii",
 ["local_planner/src/nodes/planner_functions.cpp:smoothPolarMatrix","local_planner/src/nodes/planner_functions.cpp:getConicKernel"])

p("C64","Geometry and bookkeeping of the look-ahead tree",
 "Any two nodes of the look-ahead tree are at least 0.2 m apart; every edge has exactly the configured node distance and points in one of the candidate directions of its parent; a node's total cost is the cost accumulated at its parent plus the candidate's cost plus its own heuristic; only nodes closer to the vehicle than the sensor range are expanded; the node expanded next is always a cheapest open one in range, and the search stops early only when there is none.",
 "every obstacle field, goal, parameter setting","all inputs, unbounded trees",
 ["local_planner/src/nodes/star_planner.cpp:buildLookAheadTree","local_planner/src/nodes/star_planner.cpp:treeHeuristicFunction"])

p("C65","A planning cycle completes and yields a fresh path or keeps the old one",
 "Given at least one point cloud and valid parameters, running the planner always completes; if any obstacle is remembered the output is a path ending at the vehicle and stamped with the time of this cycle, and if none is remembered path and stamp are those of the last cycle that had one.",
 "every planner state, point clouds and parameters","all inputs and histories",
 ["local_planner/src/nodes/local_planner.cpp:runPlanner","local_planner/src/nodes/local_planner.cpp:determineStrategy","local_planner/src/nodes/local_planner.cpp:getAvoidanceOutput"])
p("C66","The histogram image shows every cell once, nearer is brighter",
 "The published histogram image has one byte per histogram cell, top row first; a byte is 0 when there is no obstacle or it is out of range, at most 255, and never brighter for a farther obstacle.",
 "all histograms and distances","all reals",
 ["local_planner/src/nodes/local_planner.cpp:generateHistogramImage"])
p("C67","The goal line attracts to the nearest point of the line",
 "The point used to pull the vehicle back to the line between the previous and the current goal is the foot of the perpendicular from the vehicle to that line seen from above, at goal height; near the line, or when the goals coincide, it is the goal itself.",
 "all positions and goals","all reals",
 ["local_planner/src/nodes/local_planner.cpp:determineStrategy"])
p("C68","A loiter request takes effect within two control cycles",
 "Once the vehicle state updates request to stay, the waypoint generator is in loiter after at most two control cycles (one unless it is flying directly to the goal) and stays there as long as the request lasts, whatever the planner output, navigation mode and sensor data are.",
 "every generator state, every continuation","all histories",
 ["local_planner/src/nodes/waypoint_generator.cpp:runTryPath","local_planner/src/nodes/waypoint_generator.cpp:runDirect","local_planner/src/nodes/waypoint_generator.cpp:runAltitudeChange"])
p("C69","The position command is the smoothed target",
 "The position waypoint returned by every control cycle equals the smoothed goto position of the same result; in particular the braking command before an altitude change reaches the autopilot.",
 "every history","all histories",
 ["local_planner/src/nodes/waypoint_generator.cpp:getPathMsg","local_planner/src/nodes/waypoint_generator.cpp:runAltitudeChange"])
p("C70","The commanded orientation is a valid yaw rotation",
 "The orientation waypoint of every control cycle is a unit quaternion for a pure yaw rotation with yaw between -pi and pi.",
 "every history over the reals","all histories, all reals",
 ["local_planner/src/nodes/waypoint_generator.cpp:nextSmoothYaw","local_planner/src/nodes/waypoint_generator.cpp:adaptSpeed"])
p("C71","The commanded yaw rate is a computed value",
 "The angular velocity returned by a control cycle is computed from the setpoint and current yaw.",
 "every history","absence of a write in any history",
 ["local_planner/src/nodes/waypoint_generator.cpp:transformPositionToVelocityWaypoint"])
p("C72","Each setpoint is based on a fresh vehicle pose",
 "Two setpoint publications of the local planner node are always separated by a received vehicle pose; while the command loop waits for a pose no planner result is handed over.",
 "every interleaving of callbacks and threads","schedules",
 ["local_planner/src/nodes/local_planner_nodelet.cpp:cmdLoopCallback","local_planner/src/nodes/local_planner_nodelet.cpp:positionCallback","local_planner/src/nodes/local_planner_nodelet.cpp:threadFunction"])
p("C73","A new goal reaches the planner",
 "Whenever the goal changes, through a click, a mission message or the autopilot, the planner's next run uses that goal.",
 "every interleaving of goal updates with the planner thread","schedules, races on a flag",
 ["local_planner/src/nodes/local_planner_nodelet.cpp:updateGoalCallback","local_planner/src/nodes/local_planner_nodelet.cpp:updatePlannerInfo","local_planner/src/nodes/local_planner_nodelet.cpp:fcuInputGoalCallback"])
p("C74","The obstacle distance message is sent once per planner run",
 "The obstacle distance scan is published once after each planner run exactly if collision prevention is not disabled on the autopilot and the scan was filled.",
 "every history of events","histories",
 ["local_planner/src/nodes/local_planner_nodelet.cpp:publishLaserScan"])
p("C77","The landing grid message is decoded without loss",
 "Every landing grid the planner publishes is received by the landing waypoint generator with exactly the same cell means and landable flags, also when the grid size changed since the last message.",
 "every pair of grids, every content, binary32","all sizes and contents",
 ["safe_landing_planner/src/nodes/safe_landing_planner_node.cpp:publishSerialGrid","safe_landing_planner/src/nodes/waypoint_generator_node.cpp:gridCallback"])
p("C78","The published landing grid is the newest one",
 "After each processed point cloud the published landing grid contains the statistics that include that cloud.",
 "every history of clouds, poses and reconfigurations","all histories",
 ["safe_landing_planner/src/nodes/safe_landing_planner_node.cpp:publishSerialGrid","safe_landing_planner/src/nodes/safe_landing_planner.cpp:runSafeLandingPlanner"])
p("C79","A recorded landing grid can be replayed",
 "Feeding a recorded raw grid message to the planner reproduces the recorded means, counts and variances before smoothing, whatever grid size it was recorded with.",
 "every recorded grid and every planner state","all sizes and contents",
 ["safe_landing_planner/src/nodes/safe_landing_planner.cpp:processRawGrid","safe_landing_planner/include/safe_landing_planner/grid.hpp:combine"])
p("C83","The smoothed height of a cell follows the measurements",
 "A cell repeatedly measured at height h has a published mean that approaches h geometrically and is never outside the range of heights measured in it.",
 "every history of clouds","all histories",
 ["safe_landing_planner/include/safe_landing_planner/grid.hpp:combine","safe_landing_planner/src/nodes/safe_landing_planner.cpp:runSafeLandingPlanner"])
p("C75","The vehicle descends where it evaluated",
 "When the descent starts the vehicle is within half a metre of the site that the evaluation accepted; once descending it is commanded straight down at the landing speed at one fixed point.",
 "every history of callbacks and cycles","all interleavings of messages with the landing phases",
 ["safe_landing_planner/src/nodes/waypoint_generator.cpp:runEvaluateGrid","safe_landing_planner/src/nodes/waypoint_generator.cpp:runGoToLand","safe_landing_planner/src/nodes/waypoint_generator.cpp:runLand"])
p("C76","Aborting a landing ends the vertical command",
 "After the flight mode left landing no vertical speed is commanded that the autopilot's trajectory did not ask for; all vertical speeds ever commanded are the landing speed or taken from a trajectory.",
 "every history","aborts at every point of the landing sequence",
 ["safe_landing_planner/src/nodes/waypoint_generator.cpp:runAltitudeChange","safe_landing_planner/src/nodes/waypoint_generator_node.cpp:stateCallback","safe_landing_planner/src/nodes/waypoint_generator_node.cpp:trajectoryCallback"])
p("C80","The landing node stays inside its matrices",
 "No sequence of configurations, grids and messages makes the landing waypoint generator read or write outside one of its matrices.",
 "every history, every grid size and kernel size the parameters allow","all sizes and histories",
 ["safe_landing_planner/src/nodes/waypoint_generator.cpp:updateSLPState","safe_landing_planner/src/nodes/waypoint_generator.cpp:landingAreaHeightPercentile","safe_landing_planner/src/nodes/waypoint_generator_node.cpp:landingAreaVisualization"])
p("C81","The displayed landing area is the evaluated one",
 "The landing area marker shows each cell of the window around the vehicle, green exactly if the cell belongs to the disc-shaped patch and passed the filter.",
 "every grid size and result","all sizes and contents",
 ["safe_landing_planner/src/nodes/waypoint_generator_node.cpp:landingAreaVisualization"])
p("C82","The landing planner's companion status is truthful",
 "The reported status is ACTIVE, CRITICAL or FLIGHT_TERMINATION according to how long the input was missing against the two configured timeouts, it recovers in the first healthy cycle, and an outage is reported while it lasts.",
 "every timing of cycles and clouds, all timeouts","all timings",
 ["safe_landing_planner/src/nodes/safe_landing_planner_node.cpp:cmdLoopCallback","safe_landing_planner/src/nodes/safe_landing_planner_node.cpp:checkFailsafe"])
p("C84","A landing decision rests on at least twenty grids",
 "An area is accepted only if in each cell of the patch the smoothed landable flags of at least twenty grids, seen while loitering there, exceed the threshold.",
 "every history of grids","all histories, lost messages",
 ["safe_landing_planner/src/nodes/waypoint_generator.cpp:runLoiter"])
p("C85","A finished search is a complete search",
 "If the global search stops without a path before its iteration bound, no chain of legal moves leads from the start into the goal's radius.",
 "every map, configuration, start, goal, iteration bound and tie-breaking of the queue","all maps and all paths in them",
 ["global_planner/include/global_planner/search_tools.h:findSmoothPath","global_planner/src/library/global_planner.cpp:isLegal"])
p("C86","The risk cache is transparent",
 "Asking for the risk of cells never changes the risk reported later; a new map or a new obstacle is reflected in the next answer.",
 "every sequence of risk queries, maps and obstacle points","all orders of queries and updates",
 ["global_planner/src/library/global_planner.cpp:getRisk","global_planner/src/library/global_planner.cpp:updateFullOctomap"])
p("C87","Planning terminates",
 "One planning cycle performs finitely many searches, for every minimum overestimation factor above 1.",
 "every map, goal, position and configuration","unbounded number of repetitions with decreasing overestimation",
 ["global_planner/src/library/global_planner.cpp:findPath"])
p("C88","A failed planning cycle does not change the flight",
 "If planning fails the vehicle goes on along the rest of its old path, and if it gives up on a blocked goal it stops where it is.",
 "every state, map and path","all states in which planning can fail",
 ["global_planner/src/nodes/global_planner_node.cpp:plannerLoopCallback","global_planner/src/nodes/global_planner_node.cpp:publishPath","global_planner/src/nodes/global_planner_node.cpp:setCurrentPath","global_planner/src/library/global_planner.cpp:stop"])
p("C89","Risk accounts for the size of the robot",
 "The risk of a cell takes into account every cell within the robot's radius, for every radius and map resolution.",
 "every robot radius and octree resolution","all sizes",
 ["global_planner/src/library/cell.cpp:getFlowNeighbors","global_planner/src/library/global_planner.cpp:getRisk"])
p("C90","The global planner survives missing data",
 "No message order and no cell outside the altitude table makes the planner read uninitialised memory or outside an array.",
 "every order of messages and every cell","all orders and all cells",
 ["global_planner/src/library/global_planner.cpp:riskHeuristic","global_planner/src/library/global_planner.cpp:getSingleCellRisk","global_planner/include/global_planner/analysis.h"])
p("C91","A global path is followed in order",
 "Between two planning cycles the current goal pose only moves on to the next pose of the published path, only when a pose message arrives that is close to the current goal pose and faces its direction, and never past the last pose.",
 "every history of messages between planning cycles","all histories",
 ["global_planner/src/nodes/global_planner_node.cpp:positionCallback","global_planner/src/nodes/global_planner_node.cpp:isCloseToGoal"])
p("C92","Path statistics are lengths",
 "The reported length of a path is at least the straight distance between its ends, the energy is the length plus the climbed height times the climb cost, and removing the inner points of straight stretches of a path with at least two poses keeps ends and length; values between 0 and 1 that differ are shown in different colours.",
 "every path","all paths",
 ["global_planner/include/global_planner/common_ros.h:pathLength","global_planner/include/global_planner/common_ros.h:pathEnergy","global_planner/include/global_planner/common_ros.h:filterPathCorners","global_planner/include/global_planner/common_ros.h:pathKineticEnergy"])
p("C93","Configured search parameters stay in force",
 "The configured bound on search iterations holds for every search, and each documented reconfigurable parameter influences the planning.",
 "every history of planning cycles and parameter values","all histories",
 ["global_planner/src/library/global_planner.cpp:findPath","global_planner/src/library/global_planner.cpp:getGlobalPath"])
p("C94","A move is judged by the cells it crosses",
 "The cells considered when a move between two cells is judged are those it crosses: they contain the cell it ends in, every cell that contains a point of the straight way except the one it starts from, and only cells within 10 cm of the way; there are none only if the move stays in its cell.",
 "every pair of cells","all distances and directions",
 ["global_planner/src/library/node.cpp:getCells","global_planner/src/library/global_planner.cpp:isLegal"])
p("C95","Reconfiguration of the global planner takes effect",
 "A reconfigure request changes every parameter it contains from the next planning cycle on, and published paths respect the parameters in force.",
 "every history of messages and reconfigure requests","all histories and parameter values",
 ["global_planner/src/nodes/global_planner_node.cpp:dynamicReconfigureCallback","global_planner/include/global_planner/cell.h:CELL_SCALE","global_planner/include/global_planner/node.h:SPEEDNODE_RADIUS","global_planner/cfg/GlobalPlannerNode.cfg"])
p("C96","Turns are counted in eighths of a circle",
 "The turn penalty between two successive moves is the horizontal angle between them in eighths of a circle (0 to 4), plus one half if exactly one of them changes height.",
 "every pair of moves","all pairs of displacements, real angles",
 ["global_planner/src/library/node.cpp:getRotation","global_planner/src/library/node.cpp:getXYRotation","global_planner/src/library/cell.cpp:angle"])
p("C97","Every point cloud reaches the landing planner once",
 "The landing planner runs on every received point cloud exactly once and in the order received.",
 "every interleaving of the point cloud callback, the transform thread and the command loop","all interleavings of three threads",
 ["safe_landing_planner/src/nodes/safe_landing_planner_node.cpp:pointCloudCallback","safe_landing_planner/src/nodes/safe_landing_planner_node.cpp:startNode","safe_landing_planner/src/nodes/safe_landing_planner_node.cpp:cmdLoopCallback","safe_landing_planner/src/nodes/safe_landing_planner_node.cpp:pointCloudTransformThread"])
p("C98","A goal given at any time is tried",
 "A goal given to the global planner becomes the target of a search (unless it is reached or replaced by the user), and the path is only read where it has points, whatever the planning thread does meanwhile.",
 "every interleaving of the message callbacks and the planning thread","all interleavings of two threads",
 ["global_planner/src/nodes/global_planner_node.cpp:plannerLoopCallback","global_planner/src/nodes/global_planner_node.cpp:popNextGoal","global_planner/src/nodes/global_planner_node.cpp:moveBaseSimpleCallback","global_planner/src/nodes/global_planner_node.cpp:positionCallback","global_planner/src/nodes/global_planner_node.cpp:setCurrentPath","global_planner/src/library/global_planner.cpp:setGoal","global_planner/src/library/global_planner.cpp:getGlobalPath"])
p("C99","The landing planner's display is truthful",
 "Each marker of the three displayed grids has its own id and lies in the middle of its cell; green cells are exactly the landable ones; the colour of the spread and count maps tells whether the cell passes the threshold and different values have different colours; the displayed cloud has one intensity per cell.",
 "every history of clouds, poses and configurations","all grids and values",
 ["safe_landing_planner/src/nodes/safe_landing_planner_visualization.cpp:publishGrid","safe_landing_planner/src/nodes/safe_landing_planner_visualization.cpp:publishMeanStdDev","safe_landing_planner/src/nodes/safe_landing_planner_visualization.cpp:publishCounter","safe_landing_planner/src/nodes/safe_landing_planner_visualization.cpp:HSVtoRGB","safe_landing_planner/src/nodes/safe_landing_planner.cpp:processPointcloud"])
p("C100","A new landing configuration is in force with the next cloud",
 "After each processed cloud the grid size, cell size, smoothing window and all thresholds used are those of the last configuration sent, whatever configurations came before.",
 "every history of configurations, poses and clouds","all histories",
 ["safe_landing_planner/src/nodes/safe_landing_planner.cpp:dynamicReconfigureSetParams","safe_landing_planner/src/nodes/safe_landing_planner.cpp:runSafeLandingPlanner"])
p("C101","The local planner's display is truthful",
 "The cost image marks the cells of the vehicle's heading, of the waypoint and of the adapted waypoint and nothing else; both images are well formed; the tree shown has one line per expanded node to its parent; the range scan and the fields of view are drawn where they are measured; no display reads or writes outside of its data.",
 "every image, pose, waypoint, field of view and planner history","all inputs and histories",
 ["local_planner/src/nodes/local_planner_visualization.cpp:publishDataImages","local_planner/src/nodes/local_planner_visualization.cpp:publishTree","local_planner/src/nodes/local_planner_visualization.cpp:publishRangeScan","local_planner/src/nodes/local_planner_visualization.cpp:publishFOV"])
p("C102","The obstacle distances sent to the autopilot are current",
 "Whenever the obstacle distance message is sent after a planner run, it describes the point cloud of that run.",
 "every planner state, cloud and autopilot parameter value (NaN included)","all inputs and histories",
 ["local_planner/src/nodes/local_planner.cpp:create2DObstacleRepresentation","local_planner/src/nodes/local_planner.cpp:updateObstacleDistanceMsg","local_planner/src/nodes/local_planner_nodelet.cpp:publishLaserScan"])
p("C103","The displayed world is the world file",
 "The world is displayed completely (each object once, in order, with its own number, frame, pose, size and shape) or not at all with a failure reported; a model:// resource is the first file of that name on the search path.",
 "every world file, environment and file system","all inputs",
 ["avoidance/src/rviz_world_loader.cpp:resolveUri","avoidance/src/rviz_world_loader.cpp:visualizeRVIZWorld","avoidance/src/rviz_world_loader.cpp:visualizeDrone"])
p("C104","Risks are those of the map in use",
 "Every risk the global planner computes with is that of the map in use at that moment, and no thread reads a map that has been deleted or a container that another thread is changing.",
 "every interleaving of map messages, depth clouds, clicked points, planning cycles and command cycles","all interleavings of three threads",
 ["global_planner/src/library/global_planner.cpp:getRisk","global_planner/src/library/global_planner.cpp:getSingleCellRisk","global_planner/src/library/global_planner.cpp:updateFullOctomap","global_planner/src/nodes/global_planner_node.cpp:octomapFullCallback","global_planner/src/nodes/global_planner_node.cpp:depthCameraCallback","global_planner/src/nodes/global_planner_node.cpp:publishSetpoint","global_planner/src/nodes/global_planner_node.cpp:plannerLoopCallback"])
p("C105","The displayed trails are the flown path and the waypoints sent",
 "The displayed trail of the vehicle is the line through all positions received, the displayed trails of the waypoints are the lines through all waypoints sent, and no line of a trail is replaced by a later one; the arrow of the current setpoint shows the commanded velocity and its colour the planner's state.",
 "every history of pose messages and command cycles","all histories",
 ["local_planner/src/nodes/local_planner_visualization.cpp:publishPaths","local_planner/src/nodes/local_planner_visualization.cpp:publishCurrentSetpoint","local_planner/src/nodes/local_planner_nodelet.cpp:positionCallback","local_planner/src/nodes/local_planner_nodelet.cpp:calculateWaypoints","safe_landing_planner/src/nodes/safe_landing_planner_visualization.cpp:publishPaths","safe_landing_planner/src/nodes/safe_landing_planner_node.cpp:positionCallback"])
p("C106","The local planner's threads do not block each other",
 "With any number of cameras and under every schedule no set of the local planner node's threads waits for each other: each thread with something under way can go on or waits, directly or indirectly, for one that can or for the outside world only; mutexes are taken and returned properly and whatever has begun ends.",
 "every number of cameras, every schedule of the callbacks, camera threads, planning thread, command thread, parameter polling and destructor","all interleavings, any number of threads",
 ["local_planner/src/nodes/local_planner_nodelet.cpp:threadFunction","local_planner/src/nodes/local_planner_nodelet.cpp:pointCloudTransformThread","local_planner/src/nodes/local_planner_nodelet.cpp:cmdLoopCallback","local_planner/src/nodes/local_planner_nodelet.cpp:dynamicReconfigureCallback","local_planner/src/nodes/local_planner_nodelet.cpp:~LocalPlannerNodelet","avoidance/src/avoidance_node.cpp:checkPx4Parameters"])
p("C107","An outage does not stop the local planner node",
 "The local planner node goes on planning, accepts new settings and can be unloaded while the autopilot's pose is missing or a parameter request is not answered.",
 "every schedule","all schedules",
 ["local_planner/src/nodes/local_planner_nodelet.cpp:cmdLoopCallback","local_planner/src/nodes/local_planner_nodelet.cpp:threadFunction","local_planner/src/nodes/local_planner_nodelet.cpp:~LocalPlannerNodelet","avoidance/src/avoidance_node.cpp:checkPx4Parameters"])
p("C108","Every node ends when it is shut down",
 "When ROS is shut down (or the nodelet unloaded) each of the three nodes joins all of its threads and ends.",
 "every number of cameras and every schedule of the threads that are told to end","all schedules",
 ["avoidance/src/avoidance_node.cpp:init","local_planner/src/nodes/local_planner_nodelet.cpp:~LocalPlannerNodelet","safe_landing_planner/src/nodes/safe_landing_planner_node_main.cpp:main","safe_landing_planner/src/nodes/safe_landing_planner_node.cpp:startNode"])
p("C109","A received cloud is planned with soon",
 "If the transforms are there, a received cloud is transformed within 5 s, the planner runs within 5 s after all cameras' clouds have been transformed and within 10 s after all cameras have delivered; a cloud of a camera that sends every p ms waits no longer than 300 ms + p; a cloud is planned with as soon as the threads are free.",
 "every number of cameras, every schedule and every sequence of clouds","all schedules, lost notifications included",
 ["local_planner/src/nodes/local_planner_nodelet.cpp:pointCloudCallback","local_planner/src/nodes/local_planner_nodelet.cpp:pointCloudTransformThread","local_planner/src/nodes/local_planner_nodelet.cpp:threadFunction"])
p("C110","What is said about a path is true",
 "For a path of cells the global planner's path information gives the cost the search adds up along it, its climb-weighted length, the part due to risk and the part due to turns; a path the search returned is not reported as blocked; the path message with risks has one risk per pose, that of the pose's cell; the returned path costs at most the overestimate factor times the cheapest legal path.",
 "every path, map, vehicle state and parameters within their limits","all paths and maps",
 ["global_planner/src/library/global_planner.cpp:getPathInfo","global_planner/src/library/global_planner.cpp:getPathWithRiskMsg","global_planner/include/global_planner/search_tools.h:findSmoothPath"])
p("C111","In free space the planner goes for the goal",
 "With nothing in the histogram, at rest and with the goal and the nearest point of the line to it in one azimuth, the direction ranked first is at most half a cell (3 degrees) off the goal in elevation and azimuth; flying towards the goal at a speed s it is at most so far off that the climb and turn weights allow for the velocity weight.",
 "every goal at up to 45 degrees elevation, distance, weights, smoothing margin, priority queue and speed","all inputs",
 ["local_planner/src/nodes/planner_functions.cpp:costFunction","local_planner/src/nodes/planner_functions.cpp:getCostMatrix","local_planner/src/nodes/planner_functions.cpp:getBestCandidatesFromCostMatrix"])
p("C112","A walled-off direction is not chosen",
 "If every cell within the smoothing margin of a direction is blocked nearer than some distance, and every cell within the margin of another direction is free, the blocked one costs more and is never ranked first, as long as the weights for turning, climbing and changing velocity cannot exceed the obstacle cost; the default weights satisfy this away from the goal.",
 "every histogram, position, velocity, goal at least 5 m away and weights","all inputs",
 ["local_planner/src/nodes/planner_functions.cpp:costFunction","local_planner/src/nodes/planner_functions.cpp:getCostMatrix","local_planner/src/nodes/planner_functions.cpp:getBestCandidatesFromCostMatrix"])
p("C113","Every obstacle counts",
 "An obstacle added or moved nearer never makes a direction cheaper, and makes every direction within the smoothing margin more expensive.",
 "every pair of histograms, goal, velocity, weights and margin","all inputs",
 ["local_planner/src/nodes/planner_functions.cpp:costFunction","local_planner/src/nodes/planner_functions.cpp:getCostMatrix","local_planner/src/nodes/planner_functions.cpp:getBestCandidatesFromCostMatrix"])
p("C114","Data shared among the node's threads is never accessed by two of them at once",
 "The threads of the local planner node never are at the same piece of shared data at the same time while one of them writes it (a data race, undefined behaviour), and what a mutex guards does not change while another thread holds the mutex.",
 "every number of cameras, every schedule of all threads, every callback run on the main thread or from within the waiting loop","schedules",
 ["local_planner/src/nodes/local_planner_nodelet.cpp:LocalPlannerNodelet","avoidance/src/avoidance_node.cpp:AvoidanceNode","local_planner/src/nodes/waypoint_generator.cpp:WaypointGenerator","avoidance/src/transform_buffer.cpp:TransformBuffer"])
p("C115","A position or goal that the planner works with is one that was sent",
 "A vector that one thread stores while another one copies it arrives as it was sent, never mixed from two messages.",
 "every interleaving of storing and copying, every number of words, every sequence of messages","schedules",
 ["local_planner/src/nodes/local_planner_nodelet.cpp:LocalPlannerNodelet","avoidance/src/avoidance_node.cpp:AvoidanceNode","local_planner/src/nodes/waypoint_generator.cpp:WaypointGenerator","avoidance/src/transform_buffer.cpp:TransformBuffer"])
p("C116","A reconfiguration of the local planner takes effect at once, completely, and changes nothing else",
 "After a reconfigure request every later planning cycle, in both stages (obstacle histogram and search tree), is that of a planner that has always had the requested parameters; every parameter of the request has an effect; nothing that is not a parameter (goal, remembered points, path, pose) changes.",
 "every history of configurations, poses, goals, fields of view, firmware parameters and planner runs, every number system","histories of calls",
 ["local_planner/src/nodes/local_planner.cpp:LocalPlanner::dynamicReconfigureSetParams","local_planner/src/nodes/star_planner.cpp:StarPlanner::dynamicReconfigureSetStarParams","local_planner/cfg/LocalPlannerNode.cfg"])
p("C117","The look-ahead path does not step into a wall the planner remembers",
 "Every step of a new look-ahead path goes one node distance to the centre of a cell of the 6-degree grid around its predecessor (the first one: the vehicle), and this cell is not in the middle of a wall (remembered points in all cells within the smoothing radius, none farther than the wall's distance) if there are as many other directions, free of remembered points within the same radius, as a tree node has children, whose costs of turning, climbing and changing velocity stay below the wall's cost.",
 "every state, configuration with 0 to 180 degrees margin and non-negative weights, point clouds and order of the priority queue in which a planner run returns; goal at least 5 m from the predecessor","cloud contents, search tree and costs are unbounded; the guarantee is about the composition of filter, histogram, smoothing, ranking and tree search",
 ["local_planner/src/nodes/local_planner.cpp:LocalPlanner::runPlanner","local_planner/src/nodes/star_planner.cpp:StarPlanner::buildLookAheadTree","local_planner/src/nodes/planner_functions.cpp:getCostMatrix"])
p("C118","Which data of the global planner node can be raced for",
 "No two of the global planner node's threads are at the same data at the same time, one of them to write it, unless the data are among the ones listed: the map, the caches, the vehicle's position, the goals and paths, the reconfigurable parameters, and the times and the state of the failsafe. Each of these can be raced for (the map is freed while the command loop reads it). The PX4 parameters are protected by their mutex, the rest belongs to one thread.",
 "every schedule of the node's five threads, every branch, any number of turns of the loops","a race depends on the schedule; tests run one and cannot show that no other schedule has a race",
 ["global_planner/src/nodes/global_planner_node.cpp:GlobalPlannerNode","global_planner/src/library/global_planner.cpp:GlobalPlanner","avoidance/src/avoidance_node.cpp:AvoidanceNode"])
p("C119","Which data of the safe landing planner node can be raced for",
 "No two of the safe landing planner node's threads are at the same data at the same time, one of them to write it, unless it is the flag that a cloud is ready or the pointers to the mutexes (which are set after the transform thread, that uses them, has been started); both can be raced for. A grid is computed from one cloud: while the command loop holds the mutex nobody else is at the cloud.",
 "every schedule of the node's threads, every branch, any number of turns of the loops","a race depends on the schedule; tests run one and cannot show that no other schedule has a race",
 ["safe_landing_planner/src/nodes/safe_landing_planner_node.cpp:SafeLandingPlannerNode","safe_landing_planner/src/nodes/safe_landing_planner.cpp:SafeLandingPlanner::runSafeLandingPlanner"])
p("C120","No deadlock in the global planner node and in the safe landing planner node",
 "Whenever a thread of one of the two nodes waits for a mutex, it can have it at once, or another thread has it that can let go of it without waiting for anybody. But the position does wait for the planner: while a path is planned, the callback thread can be waiting for the map's mutex, and the command loop goes on, any number of times, with the position it had before.",
 "every schedule of the nodes' threads, every branch, any number of turns of the loops","a deadlock depends on the schedule; tests run one",
 ["global_planner/src/nodes/global_planner_node.cpp:GlobalPlannerNode","safe_landing_planner/src/nodes/safe_landing_planner_node.cpp:SafeLandingPlannerNode","avoidance/src/avoidance_node.cpp:AvoidanceNode"])
p("C121","An obstacle seen by a depth camera is remembered where it is",
 "The set of cells in which the global planner has seen an obstacle is, after any history, what it was before plus the cells of the points (x not NaN) of the clouds received, and these are the cells in which the obstacles are: no obstacle is missed, none forgotten, none put elsewhere; and what was seen counts for the risk of its cell at once.",
 "every history of callbacks and clouds, every tf tree, every configuration of cameras","the cells depend on the transforms at the times the clouds arrive; tests have one camera that does not move",
 ["global_planner/src/nodes/global_planner_node.cpp:GlobalPlannerNode::depthCameraCallback","global_planner/src/nodes/global_planner_node.cpp:GlobalPlannerNode::readParams","global_planner/launch/global_planner_sitl_3cam.launch"])
p("C122","The made-up data make the planner see the wall and fly to the goal",
 "The cloud sent by the mock data node consists of the points of its wall and no others, for every size of wall, and the goal it sends becomes the planner's goal.",
 "every size of the wall, every transform, every state of the planner","there is no test of the mock data node",
 ["global_planner/src/nodes/mock_data_node.cpp:MockDataNode","global_planner/src/nodes/global_planner_node.cpp:GlobalPlannerNode::clickedPointCallback"])
p("C123","The vehicle looks where it flies",
 "In every control cycle of the local planner, unless it changes altitude or holds its heading within 1 m of the goal, the commanded yaw points from the vehicle to the target of the cycle (the vehicle's own yaw if the target is not more than 0.1 m away horizontally); with smoothing, while the target stays in one direction, the commanded yaw turns there the short way round, the missing turn shrinking by the factor 1 - h^2 per cycle of length h (in time constants, up to 1/2). The landing planner's yaw points to the commanded goal while it flies to a landing site and while it explores; on the way to a goal it is the one the autopilot asked for.",
 "every history, any number of control cycles of any lengths (up to half the time constant), every position, target and yaw rate, ideal arithmetic","the yaw is the result of a filter's history and of wrapping angles; tests check single poses",
 ["local_planner/src/nodes/waypoint_generator.cpp:WaypointGenerator::nextSmoothYaw","avoidance/src/common.cpp:nextYaw","safe_landing_planner/src/nodes/waypoint_generator.cpp:WaypointGenerator::runGoToLand"])
p("C124","The smoothed setpoint follows its target",
 "Per coordinate, the distance (with the rate) of the smoothed setpoint from the speed-adapted target shrinks in every control cycle, so that the setpoint converges to a target that stays, and never runs away from the vehicle.",
 "every state with smoothing on, any number of control cycles of any lengths, every vehicle velocity, ideal arithmetic","convergence of a filter is a statement about unboundedly many cycles and every sequence of cycle lengths",
 ["local_planner/src/nodes/waypoint_generator.cpp:WaypointGenerator::smoothWaypoint","local_planner/src/nodes/waypoint_generator.cpp:WaypointGenerator::getPathMsg"])
p("C125","Take-offs climb, landings land, and invalid data pass",
 "After a vehicle state on the ground, offboard flight below the goal altitude is an altitude change, whatever happened in earlier flights. A control cycle that evaluates the mode is followed by landing mode exactly if the autopilot lands, by mode or mission item. The smoothed setpoint of the first cycle after the ground or a landing starts from the vehicle's position. A filter whose memory is not finite is forgotten with the next vehicle state, and a target that is not a number does not reach the commanded position.",
 "every history of vehicle states, planner results and control cycles; every number system, reals for the modes and the restart, binary32 for the invalid data","flags and filter memories survive from one flight to the next; tests start with a new generator",
 ["local_planner/src/nodes/waypoint_generator.cpp:WaypointGenerator::isAltitudeChange","local_planner/src/nodes/waypoint_generator.cpp:WaypointGenerator::updateState","local_planner/src/nodes/waypoint_generator.cpp:WaypointGenerator::smoothWaypoint"])
p("C126","Planner and waypoint generator know the field of view of each camera",
 "After any number of planning cycles with any number of cameras, the field of view that the planner and the waypoint generator have for a camera is the one of this camera in the last cycle.",
 "every number of cameras, every sequence of cycles, every state before, every number system","the lists grow with the cameras and are kept from cycle to cycle; tests report one camera",
 ["local_planner/src/nodes/local_planner_nodelet.cpp:LocalPlannerNodelet::updatePlannerInfo","local_planner/src/nodes/local_planner.cpp:LocalPlanner::setFOV","local_planner/src/nodes/waypoint_generator.cpp:WaypointGenerator::setFOV"])
p("C127","The distance of two directions",
 "The polar distance of two directions is symmetric, at least the larger and at most the sum of the differences of their angles, zero exactly if the angles agree, and does not depend on how an azimuth is written.",
 "every pair of polar points","ranges over all pairs of angles",
 ["avoidance/src/common.cpp:distance2DPolar"])
with open("/verif/properties.jsonl","w") as f:
    for x in P: f.write(json.dumps(x)+"\n")
print(len(P))
