{"id": "C01", "title": "Adding two times is exact", "statement": "For two simulation times with positive timescales, the sum returned by the time class, read as the rational value/timescale, equals the rational sum of the operands, and its timescale is their least common multiple, whenever the least common multiple is at most 2^31 and the exact sum over that timescale fits a signed 32-bit integer.", "quantifier": "every pair of (value, timescale) pairs, 2^126 inputs", "why_tests_cant": "the timescale is found by a trial-division loop with an overflow guard and 32-bit wrap-around; a test fixes a handful of pairs", "anchors": ["libvvhd/headers/TTime.hpp: TTime::add, TTime::lcm"]}
{"id": "C02", "title": "The clock does not drift", "statement": "After any number n of simulation steps started at time t0 with step dt, the clock is exactly t0 + n*dt as a rational number and its timescale stays at the value reached after the first step, as long as t0 + k*dt is representable for every k up to n.", "quantifier": "every start time, every step, every number of steps", "why_tests_cant": "drift is a property of unbounded histories; a test runs a fixed number of steps", "anchors": ["libvvhd/headers/TTime.hpp: TTime::add", "libvvhd/headers/TSpace.hpp: Space::finish_step", "utils/vvflow/vvflow.cpp: simulate"]}
{"id": "C03", "title": "divisibleBy decides integer multiples", "statement": "A time is reported divisible by a non-zero period exactly when it is an integer multiple of that period as a rational number, provided the least common multiple of the timescales is at most 2^31; a period with zero value never divides.", "quantifier": "every time and period with positive timescale", "why_tests_cant": "truncating 64-bit divisions could give false positives on inputs no test picks", "anchors": ["libvvhd/headers/TTime.hpp: TTime::divisibleBy"]}
{"id": "C04", "title": "Time arithmetic either is exact or reports an error", "statement": "Adding a step to the clock never silently yields a different instant: the result is the exact sum or the program stops with an error.", "quantifier": "every pair of times with positive timescale", "why_tests_cant": "the failing inputs need a least common multiple above 2^31 or a value above 2^31-1; finding them takes a search over 2^126 inputs, excluding them takes a proof", "anchors": ["libvvhd/headers/TTime.hpp: TTime::lcm, TTime::add"]}
{"id": "C05", "title": "Lua can not install a zero timescale", "statement": "After any sequence of assignments (accepted or rejected) of tables or strings to S.time, S.dt and the other time members, the stored timescale is positive, and a rejected assignment leaves the stored time unchanged.", "quantifier": "every sequence of Lua assignments with arbitrary integers and strings", "why_tests_cant": "the check is made on a 64-bit integer and the store on a 32-bit one; only values beyond 2^32 separate them", "anchors": ["utils/vvflow/getset.cpp: luavvd_setTTime"]}
{"id": "C06", "title": "Expression caching is invisible", "statement": "For an expression that is a pure function of t, eval(t) returns the value of the most recently accepted expression at t, whatever sequence of assignments, failed assignments, copies and evaluations came before.", "quantifier": "every history of operations on any number of expression objects, every argument", "why_tests_cant": "the answer depends on a two-entry cache whose content is the whole evaluation history", "anchors": ["libvvhd/src/TEval.cpp: TEval::eval, TEval::operator=, TEval::TEval"]}
{"id": "C07", "title": "A rejected expression changes nothing", "statement": "Assigning an expression that does not compile or does not evaluate to a number at t=0 raises invalid_argument and leaves the text of the expression and every later eval result as if the assignment had never been attempted.", "quantifier": "every history of operations and every rejected string", "why_tests_cant": "exception safety must hold in every reachable state of the object", "anchors": ["libvvhd/src/TEval.cpp: TEval::operator=", "utils/vvflow/lua_teval.cpp: luavvd_setTEval"]}
{"id": "C08", "title": "Moving a body is a rigid motion", "statement": "Moving a body by any translation and rotation keeps all distances between its corners, its perimeter, its area and its moment of inertia, carries its centre of mass along with the corners, and moves its rotation axis by exactly the translation.", "quantifier": "every polygon, every motion, any sequence of motions", "why_tests_cant": "holds over a continuum of shapes and motions", "anchors": ["libvvhd/src/TBody.cpp: TBody::move, TBody::doRotationAndMotion, TBody::doUpdateSegments, TBody::doFillProperties"]}
{"id": "C09", "title": "Body geometry is that of the closed polygon", "statement": "The segments of a body close (their sum is zero), the reported area is the signed shoelace area (positive for clockwise corners), reversing the corner order negates it, choosing another first corner changes none of area, centre of mass and moment of inertia, and translating the body shifts the centre of mass by the translation.", "quantifier": "every corner list", "why_tests_cant": "holds over a continuum of shapes of unbounded size", "anchors": ["libvvhd/src/TBody.cpp: TBody::doUpdateSegments, TBody::doFillProperties"]}
{"id": "C10", "title": "The bounding-box and disc shortcut of the point-in-body test is sound", "statement": "Whether a point is reported inside a body does not depend on the bounding-box and bounding-disc shortcut: the answer equals the even-odd ray test over all segments.", "quantifier": "every polygon of positive area and every point", "why_tests_cant": "needs every polygon and every point; a wrong shortcut shows only at rare positions", "anchors": ["libvvhd/src/TBody.cpp: TBody::isPointInContour, TBody::doFillProperties"]}
{"id": "C11", "title": "Critical validation admits only usable parameters", "statement": "If saving accepts a body then, per degree of freedom, damping is finite, the spring constant is not NaN and not negative, and the collision range is not empty; validation of an accepted body changes nothing; a body it rejects raises an error naming the first parameter that is not usable. Validation when loading changes nothing except negative spring constants, which become infinite.", "quantifier": "every combination of double values including NaN and infinities", "why_tests_cant": "IEEE special values in every combination of nine parameters", "anchors": ["libvvhd/src/TBody.cpp: TBody::validate", "libvvhd/src/TSpace.cpp: Space::save"]}
{"id": "C12", "title": "Building the search tree loses no object", "statement": "Building the tree only permutes the vortex, heat and streak lists: the same objects, with the same fields, each exactly once; the leaf ranges tile every list from beginning to end without gap or overlap.", "quantifier": "every list of objects with arbitrary coordinates (NaN included) and every depth of subdivision", "why_tests_cant": "in-place partitioning by a two-pointer loop at every recursion level; tests only try lists of given sizes", "anchors": ["libvvhd/src/TSortedTree.cpp: TSortedNode::DistributeContent, TSortedNode::DivideNode, TSortedTree::build"]}
{"id": "C13", "title": "Near and far nodes cover every object exactly once", "statement": "For every leaf of the tree, the near leaves together with the leaves below the far nodes are all leaves of the tree, each exactly once.", "quantifier": "every tree shape and every criterion value", "why_tests_cant": "double counting or omission depends on the recursion over an arbitrary tree", "anchors": ["libvvhd/src/TSortedTree.cpp: TSortedNode::FindNearNodes, TSortedTree::build"]}
{"id": "C14", "title": "A node summarises exactly its objects", "statement": "In exact arithmetic the positive and negative summaries of every node have total circulation and first moment equal to the sums over the objects below it.", "quantifier": "every tree and every list of objects", "why_tests_cant": "unbounded recursion depth, and the zero-circulation branch", "anchors": ["libvvhd/src/TSortedTree.cpp: TSortedNode::CalculateCMass, TSortedNode::CalculateCMassFromScratch"]}
{"id": "C15", "title": "Looking up a point finds the leaf that holds it", "statement": "findNode(p) for the position p of an object in the tree returns the leaf whose range contains that object, and for any point it returns a leaf.", "quantifier": "every tree built from any object lists, every object", "why_tests_cant": "ties on the splitting line and the order of the two-pointer loop matter", "anchors": ["libvvhd/src/TSortedTree.cpp: TSortedTree::findNode, TSortedNode::DivideNode"]}
{"id": "C16", "title": "Building the tree terminates", "statement": "For every finite set of objects the subdivision stops: it recurses finitely often.", "quantifier": "every list of objects and every pair of node-size limits", "why_tests_cant": "termination can not be tested", "anchors": ["libvvhd/src/TSortedTree.cpp: TSortedNode::DivideNode"]}
{"id": "C17", "title": "Unknowns of the linear system are numbered without gaps or clashes", "statement": "Numbering gives every segment of every body and every body force block its own row numbers, distinct from all others, and together they are exactly 0 .. total-1.", "quantifier": "every list of bodies of every size", "why_tests_cant": "unbounded numbers of bodies and segments", "anchors": ["libvvhd/src/TSpace.cpp: Space::EnumerateBodies", "libvvhd/src/MConvectiveFast.cpp: MConvectiveFast::calc_circulation"]}
{"id": "C18", "title": "Solution slots are found again", "statement": "After any sequence of slot assignments, looking up the column of a solution variable returns the column that variable was last assigned to.", "quantifier": "every history of assignments, including re-enumeration after bodies were added, removed or reordered", "why_tests_cant": "the failure needs a particular order of re-assignments", "anchors": ["libvvhd/src/TMatrix.cpp: TMatrix::setSolutionForCol, TMatrix::getColForSolution, TMatrix::getCell"]}
{"id": "C19", "title": "Reusing the inverse matrix does not change the solution", "statement": "Over any history of systems, solving with the cached inverse returns the solution of the system currently stored.", "quantifier": "every history of matrices and right-hand sides", "why_tests_cant": "the cache key is a 32-bit hash; a wrong hit needs a collision or a zero hash", "anchors": ["libvvhd/src/TMatrix.cpp: TMatrix::solveUsingInverseMatrix, TMatrix::fillInverseMatrix, TMatrix::bodyMatrixOK"]}
{"id": "C20", "title": "Every row of the linear system is written exactly once", "statement": "Filling the system writes each of its rows exactly once, exactly one row carries the far-field circulation condition when all bodies have the steady condition, and the parallel jobs never write the same row.", "quantifier": "every body list, root structure, boundary condition and degree-of-freedom combination", "why_tests_cant": "the rows are distributed over parallel jobs by nested case distinctions", "anchors": ["libvvhd/src/MConvectiveFast.cpp: MConvectiveFast::fillMatrix, fillSlipEquationForSegment, fillZeroEquationForSegment, fillInfSteadyEquationForSegment"]}
{"id": "C21", "title": "Circulation bookkeeping is conserved", "statement": "In exact arithmetic over any number of steps, the change of the circulation of the vortex list plus the circulation of the vortices dropped for being weak equals the sum of what the force calculations read from the segments plus the change of the segment sums; after every step the dead circulation of each body is minus the sum of its segments.", "quantifier": "every vortex list, body list, velocity field and number of steps", "why_tests_cant": "invariant over unbounded histories with data-dependent removals", "anchors": ["libvvhd/src/MFlowmove.cpp: MFlowmove::move_and_clean, MFlowmove::vortex_shed", "libvvhd/src/TSpace.cpp: Space::zero_forces"]}
{"id": "C22", "title": "Collision limits hold", "statement": "In exact arithmetic, bodies without root whose free degrees of freedom are within their collision range stay within it after a step, the step used is between zero and the nominal step, it is the nominal one unless a collision is reported, and a reported body sits exactly at its limit.", "quantifier": "every set of bodies, positions, speeds and limits", "why_tests_cant": "a minimum over all bodies and degrees of freedom with special values", "anchors": ["libvvhd/src/MFlowmove.cpp: MFlowmove::move_and_clean"]}
{"id": "C23", "title": "Moving the flow keeps exactly the surviving vortices", "statement": "After the motion step the vortex list consists of exactly the objects that are not below the removal threshold and do not end up in a body, in their original order, displaced by velocity times the step used, with zeroed velocity; the reported number is that of the absorbed ones. Streak particles, and heat when no body is isothermal, are treated alike.", "quantifier": "every vortex, heat and streak list and body configuration", "why_tests_cant": "iterating while erasing is the classic source of skipped elements", "anchors": ["libvvhd/src/MFlowmove.cpp: MFlowmove::move_and_clean"]}
{"id": "C24", "title": "Collision response is applied", "statement": "If the motion step reports that a degree of freedom hit its limit then the next linear system contains the bounce equation for that degree of freedom.", "quantifier": "every set of bodies with any free degrees of freedom", "why_tests_cant": "the pointer to the colliding degree of freedom is overwritten depending on the order in which others are visited", "anchors": ["libvvhd/src/MConvectiveFast.cpp: MConvectiveFast::fillHookeEquationX, fillHookeEquationY, fillHookeEquationO, fillNewtonEquation*, MConvectiveFast::calc_circulation", "libvvhd/src/MFlowmove.cpp: MFlowmove::move_and_clean", "utils/vvflow/vvflow.cpp: simulate"]}
{"id": "C25", "title": "The step log is aligned and resumes cleanly", "statement": "At every moment after the log is opened all its datasets have the same number of rows as the time column, the rows kept when a run is resumed are exactly the leading ones with time before the restart time, and every step appends exactly one row.", "quantifier": "every history of runs, stops at any step and restarts", "why_tests_cant": "needs every crash point and restart time", "anchors": ["libvvhd/src/MStepdata.cpp: Stepdata::Stepdata, Stepdata::write, Stepdata::flush"]}
{"id": "C26", "title": "Saving and loading a space is lossless for the saved state", "statement": "Loading a file produced by saving a space gives back every stored quantity: caption, times, parameters, expressions, object lists, and for every body its corners, circulations, slip flags, parameters and root relation.", "quantifier": "every space that can be saved", "why_tests_cant": "a product of unbounded lists with optional attributes", "anchors": ["libvvhd/src/TSpace_save_hdf.cpp: Space::save_hdf, dataset_write_body, dataset_write_list", "libvvhd/src/TSpace_load_hdf.cpp: Space::load_hdf, dataset_read_body, dataset_read_list", "libvvhd/src/vvhdf.cpp: h5a_read, h5a_write"]}
{"id": "C27", "title": "Saving and loading keeps the order of bodies", "statement": "The n-th body of the loaded space is the n-th body of the saved one, for any number of bodies.", "quantifier": "every number of bodies", "why_tests_cant": "body names sort as strings; the order breaks only above one hundred bodies", "anchors": ["libvvhd/src/TSpace_save_hdf.cpp: Space::save_hdf", "libvvhd/src/TSpace_load_hdf.cpp: Space::load_hdf"]}
{"id": "C28", "title": "Loading replaces the previous state", "statement": "After loading a file, the object lists and bodies are those of the file, whatever the space held before.", "quantifier": "every previous state and every file", "why_tests_cant": "a stale list shows only for a non-empty previous state and a file lacking that list", "anchors": ["libvvhd/src/TSpace.cpp: Space::load", "libvvhd/src/TSpace_load_hdf.cpp: Space::load_hdf"]}
{"id": "C29", "title": "Merging vortices conserves circulation", "statement": "In exact arithmetic merging never changes the total circulation of the list; merging two vortices of the same sign also keeps the first moment; the number of vortices with non-zero circulation never grows, and the merge counter equals the number of merges performed.", "quantifier": "every vortex list and tree", "why_tests_cant": "data-dependent merges over an arbitrary tree", "anchors": ["libvvhd/src/MEpsilonFast.cpp: MEpsilonFast::MergeVortexes, MEpsilonFast::CalcEpsilonFast, MEpsilonFast::epsv"]}
{"id": "C30", "title": "The vortex core radius uses the two nearest neighbours", "statement": "The smoothing distance computed for a vortex is the distance to its second nearest neighbour among the near nodes (the nearest if there is only one, and the documented default if none), bounded below by a third of the nearest segment length.", "quantifier": "every neighbourhood of a vortex", "why_tests_cant": "selection of the two smallest in one pass with updates in both orders", "anchors": ["libvvhd/src/MEpsilonFast.cpp: MEpsilonFast::epsv, eps2h, h2"]}
{"id": "C31", "title": "Pairwise vortex interaction conserves the first moment", "statement": "In exact arithmetic the velocity two vortices of equal core radius induce on each other is antisymmetric, so circulation-weighted velocities sum to zero over all pairs; it vanishes for coincident vortices instead of dividing by zero.", "quantifier": "every pair of positions, circulations and core radii", "why_tests_cant": "a continuum of positions including coincidence", "anchors": ["libvvhd/src/MConvectiveFast.cpp: biot_savart"]}
{"id": "C32", "title": "Diffusive velocity has no singularity", "statement": "The denominators used for the diffusive velocity of a vortex never vanish: the guarded sum keeps the sign of the vortex and at least a tenth of its size, and the surface term is bounded away from zero.", "quantifier": "every neighbourhood and circulation", "why_tests_cant": "needs every cancellation pattern of the sums", "anchors": ["libvvhd/src/MDiffusiveFast.cpp: MDiffusiveFast::process_vort_list, MDiffusiveFast::process_heat_list"]}
{"id": "C33", "title": "A field written by vvplot is read back", "statement": "Parsing the byte string written for an evaluated field gives a field with the same resolution and the same values at every grid node.", "quantifier": "every field of every resolution and every values including NaN", "why_tests_cant": "arbitrary sizes and values", "anchors": ["libvvhd/src/XField.cpp: XField::XField(const std::string&), operator<<"]}
{"id": "C34", "title": "Field parsing never reads outside the string", "statement": "Parsing any byte string either raises an error or reads only inside the string.", "quantifier": "every byte string", "why_tests_cant": "the failing strings satisfy all checks yet have a single row", "anchors": ["libvvhd/src/XField.cpp: XField::XField(const std::string&)"]}
{"id": "C35", "title": "Percentile returns the order statistic", "statement": "percentile(p) returns the floor(n*p)-th smallest (p<1/2) or floor(n*(1-p))-th largest of the n non-zero values, and is defined for every p in (0,1).", "quantifier": "every field and every p", "why_tests_cant": "small fields and small p make the index zero", "anchors": ["libvvhd/src/XField.cpp: XField::percentile"]}
{"id": "C36", "title": "Isoline merging conserves segments", "statement": "The set of drawn edges of the isolines is exactly the set of segments produced by the grid cells, in any order of merging; every line has at least two points.", "quantifier": "every sequence of segments", "why_tests_cant": "lines are joined by any of four end combinations in any order", "anchors": ["libvvhd/src/XIsoline.cpp: XIsoline::commit_segment, XIsoline::merge_lines"]}
{"id": "C37", "title": "Isolines cross every cell boundary an even number of times", "statement": "A level that equals no corner value of a cell crosses the boundary of the cell 0, 2 or 4 times, so no line ends inside the grid.", "quantifier": "every cell of four values and every level", "why_tests_cant": "IEEE comparisons in all orders, including NaN", "anchors": ["libvvhd/src/XIsoline.cpp: XIsoline::XIsoline, inrange"]}
{"id": "C38", "title": "Neighbouring cells agree on shared edges", "statement": "The crossing point computed on a shared edge is bit-for-bit the same from both cells, so isolines continue across cells.", "quantifier": "every field and every level", "why_tests_cant": "floating-point expressions evaluated from two sides", "anchors": ["libvvhd/src/XIsoline.cpp: XIsoline::process_rect"]}
{"id": "C39", "title": "Generated bodies are closed, evenly spaced and clockwise", "statement": "A generated cylinder has exactly N corners, all at distance R from the origin, with equal segment lengths, and its area is N/2*R^2*sin(2*pi/N); the pieces of the other generators join end to end.", "quantifier": "every N, R and spacing", "why_tests_cant": "a continuum of parameters", "anchors": ["utils/vvflow/gen_body.cpp: gen_seg_N, gen_seg_dl, gen_arc_N, gen_arc_dl", "utils/vvflow/gen_cylinder.cpp: luavvd_gen_cylinder", "utils/vvflow/gen_parallelogram.cpp", "utils/vvflow/gen_box.cpp", "utils/vvflow/gen_savonius.cpp"]}
{"id": "C40", "title": "vvplot fixes the missing dimension with the right aspect ratio", "statement": "When exactly one of the plot dimensions is missing, the completed range and image size have the same aspect ratio (up to rounding of pixels); with more than one missing vvplot stops with an error.", "quantifier": "every combination of ranges and sizes including NaN", "why_tests_cant": "eight ways of omission times a continuum of values", "anchors": ["utils/vvplot/optparse.cpp: opt::parse"]}
{"id": "C41", "title": "Moving average prints the mean of the last rows", "statement": "For every input, row n of vvawk.mavg carries the mean of the last min(n, span) values of the selected column and leaves the other columns untouched; vvawk.avg and vvawk.sd print mean and deviation of the rows inside the range.", "quantifier": "every table, column and span", "why_tests_cant": "a circular buffer over unbounded input", "anchors": ["utils/scripts/vvawk.mavg", "utils/scripts/vvawk.avg", "utils/scripts/vvawk.sd"]}
{"id": "C42", "title": "vvawk.ampl measures the amplitude", "statement": "vvawk.ampl prints the difference between the mean of the windowed maxima and the mean of the windowed minima of the selected column.", "quantifier": "every table and every window span", "why_tests_cant": "for odd spans the window centre is not an integer index, the tool is silent about it", "anchors": ["utils/scripts/vvawk.ampl"]}
{"id": "C43", "title": "The body list never holds a body twice", "statement": "After any sequence of insert, erase and clear calls from Lua the body list contains no body twice; a refused call leaves it unchanged; insert appends and erase removes exactly the given body keeping the order of the others.", "quantifier": "every history of calls", "why_tests_cant": "invariant over unbounded histories", "anchors": ["utils/vvflow/lua_bodylist.cpp: bodylist_insert, bodylist_erase, bodylist_clear"]}
{"id": "C44", "title": "vvxtract prints a rectangular table", "statement": "For any choice of datasets the printed table has as many rows as the longest dataset, each row has one cell per column of every dataset, cells are the dataset values at that row and column, and blank past the end of a dataset.", "quantifier": "every list of datasets of every shape", "why_tests_cant": "arbitrary numbers and shapes of datasets", "anchors": ["utils/vvxtract/vvxtract.cpp: main"]}
{"id": "C45", "title": "Files are saved exactly on schedule", "statement": "During a run a results file is written at exactly those steps whose non-negative time is an integer multiple of the save period, and the run makes exactly the steps whose time is below finish plus half a step.", "quantifier": "every start time, step, save period and finish time", "why_tests_cant": "composition of the clock, the divisibility test and the loop condition over unbounded runs", "anchors": ["utils/vvflow/vvflow.cpp: simulate", "libvvhd/headers/TTime.hpp: TTime::add, TTime::divisibleBy"]}
{"id": "C46", "title": "Assigning a number to a time member stores that number", "statement": "Assigning a number with at most nine decimals to S.time, S.dt or another time member stores exactly that decimal fraction; any stored time differs from the number by less than one unit of its timescale, and integers are stored exactly.", "quantifier": "every double", "why_tests_cant": "the conversion truncates in binary; which decimals are off by one unit cannot be told from samples", "anchors": ["libvvhd/headers/TTime.hpp: TTime::makeWithSecondsDecimal", "utils/vvflow/getset.cpp: luavvd_setTTime"]}
{"id": "C47", "title": "Every saved step gets its own file", "statement": "Two different steps of one run are saved under different file numbers; a step whose time is n times dt is saved under the number n.", "quantifier": "every start time, step and number of steps", "why_tests_cant": "the number is computed with three roundings; only a proof covers all pairs of times", "anchors": ["libvvhd/src/TSpace.cpp: Space::save", "utils/vvflow/vvflow.cpp: simulate"]}
{"id": "C48", "title": "Isolines are joined as far as possible", "statement": "After construction no two different lines share an end point: a contour is never left cut into pieces that touch.", "quantifier": "every sequence of segments in every order", "why_tests_cant": "which ends meet depends on the order in which cells are visited", "anchors": ["libvvhd/src/XIsoline.cpp: XIsoline::commit_segment, XIsoline::merge_lines"]}
{"id": "C49", "title": "Building isolines terminates", "statement": "Constructing isolines with accepted arguments (finite vmax, vmin <= vmax, dv > 0) visits finitely many levels and returns.", "quantifier": "all double-precision vmin, vmax, dv", "why_tests_cant": "depends on rounding of v+dv for extreme magnitudes", "anchors": ["libvvhd/src/XIsoline.cpp: XIsoline::XIsoline"]}
{"id": "C50", "title": "Smallest and largest field value bound all values", "statement": "min() and max() return values that occur in the field, and every node value lies between them.", "quantifier": "every evaluated field", "why_tests_cant": "NaN in the first node changes the answer", "anchors": ["libvvhd/src/XField.cpp: XField::min, XField::max"]}
{"id": "C51", "title": "Transposition is correct under any thread interleaving", "statement": "However the parallel loop orders its swaps, the matrix handed to the direct solver is the stored one laid out by columns, so the direct solution is that of the stored system.", "quantifier": "every size and every order of the swaps", "why_tests_cant": "thread schedules cannot be enumerated by tests", "anchors": ["libvvhd/src/TMatrix.cpp: Matrix::transpose, Matrix::solveUsingInverseMatrix"]}
{"id": "C52", "title": "The heat-layer test depends on the present position of the body only", "statement": "Whether a point is reported in the heat layer of a body depends on the point and on the present segments of the body, not on earlier questions or motions, and every point between the body and the layer contour is reported.", "quantifier": "every body, every history of questions and motions, every point", "why_tests_cant": "the cached contour goes stale only after a motion that follows a question", "anchors": ["libvvhd/src/TBody.cpp: TBody::isPointInHeatLayer, TBody::isPointInContour, TBody::move"]}
{"id": "C53", "title": "Points outside a body are not reported inside", "statement": "A point that a straight line separates from all corners of a body of positive area is never reported inside the body.", "quantifier": "every polygon of positive area and every point", "why_tests_cant": "a wrong answer shows only at exact corner heights", "anchors": ["libvvhd/src/TBody.cpp: TBody::isPointInContour"]}
{"id": "C54", "title": "A body text file is read line by line", "statement": "Loading a body text file gives one corner per line with the coordinates and the slip flag of that line (no slip if the line has none), independent of the other lines, and reports a line without two numbers.", "quantifier": "every file and every number syntax", "why_tests_cant": "files of any length with any mixture of two- and three-column lines", "anchors": ["libvvhd/src/TBody.cpp: TBody::load_txt"]}
{"id": "C55", "title": "Heat bookkeeping is conserved", "statement": "In exact arithmetic over any number of steps, the change of the heat of the particle list plus the heat dropped or cropped equals the sum of what the force calculations read from the segments plus the change of the segment sums, for all heat conditions.", "quantifier": "every heat list, body list, velocity field and number of steps", "why_tests_cant": "invariant over unbounded histories; four boundary conditions interact with absorption", "anchors": ["libvvhd/src/MFlowmove.cpp: MFlowmove::heat_shed, MFlowmove::heat_crop, MFlowmove::move_and_clean"]}
{"id": "C56", "title": "An isothermal segment sets the particle in its heat layer", "statement": "The particle number an isothermal segment remembers from the motion step refers, when heat is shed next, to the particle that lies in the layer of this segment, and that particle gets the prescribed heat.", "quantifier": "every heat list and body configuration", "why_tests_cant": "an index is kept across calls that reorder and shorten the list", "anchors": ["libvvhd/src/MFlowmove.cpp: MFlowmove::move_and_clean, MFlowmove::heat_shed, MFlowmove::heat_crop"]}
{"id": "C57", "title": "Objects move by velocity times the time that passes", "statement": "In every step the objects of the flow are displaced by their velocity times the amount by which the clock advances.", "quantifier": "every flow, speed and collision limit", "why_tests_cant": "needs a collision in the middle of a step", "anchors": ["utils/vvflow/vvflow.cpp: simulate", "libvvhd/src/MFlowmove.cpp: MFlowmove::move_and_clean"]}
{"id": "C58", "title": "Attached bodies follow their root", "statement": "In exact arithmetic the holder of an attached body relative to the axis of its root is turned by the rotation of the root during the step and shifted by its own speed; without own speed the distance is kept exactly, at any depth of attachment.", "quantifier": "every forest of bodies, speeds and steps", "why_tests_cant": "the correction of the linearised motion is summed along the chain of roots", "anchors": ["libvvhd/src/MFlowmove.cpp: MFlowmove::move_and_clean"]}
{"id": "C59", "title": "The motion step is defined for every set of bodies", "statement": "The motion step ends and stays within its arrays for every set of bodies that can be set up.", "quantifier": "every list of bodies and root relation", "why_tests_cant": "endless loops cannot be observed by finite tests", "anchors": ["libvvhd/src/MFlowmove.cpp: MFlowmove::move_and_clean", "libvvhd/src/TBody.cpp: TBody::isPointInvalid"]}
{"id": "C60", "title": "The inverse matrix is only reused while it is the right one", "statement": "When the solver skips filling the matrix and reuses the inverse of the previous step, the matrix a full fill would write for the present bodies equals the one that was inverted, and the right side is the one of a full fill.", "quantifier": "every set of bodies, every step taken from the solution of the previous one", "why_tests_cant": "the decision is taken from a threshold on the speed, and the effect is a slightly wrong flow, not a failure", "anchors": ["libvvhd/src/MConvectiveFast.cpp: MConvectiveFast::can_use_inverse, MConvectiveFast::calc_circulation, MConvectiveFast::fillMatrix", "libvvhd/headers/TVec3D.hpp: TVec3D::iszero"]}
{"id": "C61", "title": "Solved forces account for the change of momentum", "statement": "In every solution of the system the rate of change of total momentum and of total angular momentum of the bodies equals the sum of hydrodynamic forces, forces in the holders of bodies without a root, weight less buoyancy and the centripetal term; forces between bodies cancel.", "quantifier": "every tree of bodies, every combination of free and rigid degrees of freedom, every solution", "why_tests_cant": "sums over unboundedly many bodies linked in arbitrary trees", "anchors": ["libvvhd/src/MConvectiveFast.cpp: MConvectiveFast::fillNewtonEquationX, fillNewtonEquationY, fillNewtonEquationO"]}
{"id": "C62", "title": "A rigid degree of freedom stays rigid", "statement": "After a step with the solved speeds, a body whose degree of freedom is rigid has the same offset from its holder in that degree of freedom as before.", "quantifier": "every tree of bodies, every mixture of free and rigid degrees of freedom, every step length", "why_tests_cant": "needs a body free in one direction only that hangs on a turning root", "anchors": ["libvvhd/src/MConvectiveFast.cpp: MConvectiveFast::fillSpeedEquationX, fillSpeedEquationY, fillSpeedEquationO", "libvvhd/src/MFlowmove.cpp: MFlowmove::move_and_clean"]}
{"id": "C63", "title": "Solved circulations satisfy the circulation conditions", "statement": "In every solution the circulation of bodies and free vortices is minus the circulation at infinity when some body has the steady condition, every further steady body keeps its circulation up to the vortices it absorbed and the change of its rotation, and a body with the Kutta condition sheds nothing at its special segment.", "quantifier": "every body list, special segment choice and solution", "why_tests_cant": "depends on which body comes first and on the sum over all segments", "anchors": ["libvvhd/src/MConvectiveFast.cpp: MConvectiveFast::fillSteadyEquationForSegment, fillInfSteadyEquationForSegment, fillZeroEquationForSegment"]}
{"id": "C64", "title": "The flux of a vortex through a closed contour is zero", "statement": "The influence coefficient of a vortex on a segment is the difference of one function of the distance at the two ends, also when the segment crosses the core, so the coefficients around every closed body sum to zero.", "quantifier": "every vortex position, core radius and closed polygon", "why_tests_cant": "four branches with a root of a quadratic equation, cancellation only over the whole contour", "anchors": ["libvvhd/src/MConvectiveFast.cpp: _2PI_Xi_g, _2PI_Xi_g_near, _2PI_Xi_g_dist"]}
{"id": "C65", "title": "Both versions of the vortex influence agree", "statement": "The first component of the combined influence _2PI_Xi equals _2PI_Xi_g.", "quantifier": "every point, segment and core radius", "why_tests_cant": "the branches differ only when the whole segment is within the core", "anchors": ["libvvhd/src/MConvectiveFast.cpp: _2PI_Xi, _2PI_Xi_g"]}
{"id": "C66", "title": "Node summaries describe the current vortices", "statement": "The circulation and centre stored in a tree node for the far field describe the vortices the node holds at the moment the far field is evaluated.", "quantifier": "every particle list, tree and merging", "why_tests_cant": "needs a merge across node borders and a far node at the same time", "anchors": ["libvvhd/src/MEpsilonFast.cpp: MEpsilonFast::CalcEpsilonFast", "libvvhd/src/TSortedTree.cpp: TSortedNode::CalculateCMass", "utils/vvflow/vvflow.cpp: simulate"]}
{"id": "C67", "title": "Far field is the first-order expansion at the node centre", "statement": "In exact arithmetic the velocity a particle gets from the far nodes is the value plus the linear term, at the centre of its own node, of the velocity of the summarised vortices; it is exact at the centre and its error is bounded by the square of the distance from it.", "quantifier": "every set of far nodes, every position in the node", "why_tests_cant": "a continuum of positions and summaries", "anchors": ["libvvhd/src/MConvectiveFast.cpp: MConvectiveFast::process_all_lists, far_nodes_influence"]}
{"id": "C68", "title": "A source or sink does not throw a particle over itself", "statement": "In exact arithmetic one step moves a particle because of one source or sink by at most half its distance to it, whatever the strength and the time step; the velocity is always a number.", "quantifier": "every strength, time step and distance", "why_tests_cant": "the bound is needed for all time steps and strengths", "anchors": ["libvvhd/src/MConvectiveFast.cpp: MConvectiveFast::sink_list_influence"]}
{"id": "C69", "title": "A resumed calculation continues as the uninterrupted one", "statement": "After loading a saved file the first system of equations has the same right-hand side as it would have had without the interruption.", "quantifier": "every saved state with vortices", "why_tests_cant": "the difference is in a value that is not stored and not visible in the output", "anchors": ["libvvhd/src/MConvectiveFast.cpp: MConvectiveFast::NodeInfluence, _2PI_Xi_g", "libvvhd/headers/TObj.hpp: TObj", "utils/vvflow/vvflow.cpp: simulate"]}
{"id": "C70", "title": "Bodies added after the log was opened are left out of it", "statement": "A body inserted into the space after the step log was opened is skipped when values are written; the log never touches a group it did not create.", "quantifier": "every list of bodies and every number of bodies added during a run", "why_tests_cant": "the first body added is the only one that goes wrong and the effect is memory corruption", "anchors": ["libvvhd/src/MStepdata.cpp: MStepdata::write", "libvvhd/src/MStepdata.cpp: MStepdata::create"]}
{"id": "C71", "title": "Every saved step gets its own file", "statement": "Two different steps of one calculation are saved to files with different names in the directory of the caption.", "quantifier": "every caption and every pair of steps", "why_tests_cant": "the name is cut only for long captions, and captions are used as printf formats", "anchors": ["libvvhd/src/TSpace.cpp: Space::save", "utils/vvflow/vvflow.cpp: simulate"]}
{"id": "C72", "title": "Resuming does not lose the friction of the walls", "statement": "The forces of friction computed in the step in which a saved calculation is resumed are those of the uninterrupted calculation.", "quantifier": "every saved state", "why_tests_cant": "the difference is one step of one output column after a restart", "anchors": ["libvvhd/src/TSpace_save_hdf.cpp: dataset_write_body", "libvvhd/src/TSpace_load_hdf.cpp: dataset_read_body", "libvvhd/src/TSpace.cpp: Space::calc_forces"]}
{"id": "C73", "title": "Friction acts on a body with its force and its moment about the axis", "statement": "After calc_forces the friction of a body is the sum of the forces on its segments and the sum of their moments about the axis of rotation, to which the moments in the equations of motion refer.", "quantifier": "every body and every distribution of friction", "why_tests_cant": "needs a body away from the origin, the moment is one of many terms", "anchors": ["libvvhd/src/TSpace.cpp: Space::calc_forces", "libvvhd/src/MConvectiveFast.cpp: MConvectiveFast::fillHydroOEquation"]}
{"id": "C74", "title": "Distributions along a body agree with the totals", "statement": "The heat flux of the segments weighted with their lengths adds up to the Nusselt number of the body, the friction of the segments adds up to the force, and the pressure of a segment is the sum of the circulations shed before it. Over any number of steps the distributions are sums over all steps, while the Nusselt number belongs to the last one.", "quantifier": "every body, every state of its segments, every sequence of steps", "why_tests_cant": "three sums over unbounded lists that must agree", "anchors": ["libvvhd/src/TSpace.cpp: Space::calc_forces", "libvvhd/src/TSpace.cpp: Space::zero_forces"]}
{"id": "C75", "title": "Nothing flows through the wall", "statement": "With the circulations and speeds that solve the system, the flux through every segment but the special one - of the oncoming flow, the sources, the free vortices, the vortices of all walls and the layers of vortices and sources of turning walls - is the flux of the translation of the body the segment belongs to. Leaving out the layers of a body that cannot turn changes nothing.", "quantifier": "every space, every number of bodies and segments, every solution of the system", "why_tests_cant": "a relation between all unknowns and all geometry, of which tests see a few flows within a tolerance", "anchors": ["libvvhd/src/MConvectiveFast.cpp: MConvectiveFast::fillSlipEquationForSegment", "libvvhd/src/MConvectiveFast.cpp: MConvectiveFast::_2PI_A123", "libvvhd/src/MConvectiveFast.cpp: MConvectiveFast::_2PI_Xi_g"]}
{"id": "C76", "title": "The force on a body is the change of the impulse", "statement": "In a solution the force of the fluid on a body, times the step, is friction plus the impulse of the vortices of its wall less that of the vortices which died on it, plus the change of the impulse of the fluid it displaces; the moment likewise about the axis.", "quantifier": "every space, every body, every solution of the system", "why_tests_cant": "the balance mixes two steps and all segments; a wrong term is small in most runs", "anchors": ["libvvhd/src/MConvectiveFast.cpp: MConvectiveFast::fillHydroXEquation", "libvvhd/src/MConvectiveFast.cpp: MConvectiveFast::fillHydroYEquation", "libvvhd/src/MConvectiveFast.cpp: MConvectiveFast::fillHydroOEquation"]}
{"id": "C77", "title": "Springs obey Hooke's law", "statement": "A component of the position of a body that is not rigid is either stopped or the force on its holder is the spring constant times the offset plus damping times speed plus the given torque, plus after a bounce the impulse of the stop times one plus the coefficient of restitution; without a collision it is the law without the impulse.", "quantifier": "every space, body, component, pending collision and solution", "why_tests_cant": "collisions and the order of bodies decide which equation is written", "anchors": ["libvvhd/src/MConvectiveFast.cpp: MConvectiveFast::fillHookeXEquation", "libvvhd/src/MConvectiveFast.cpp: MConvectiveFast::fillHookeYEquation", "libvvhd/src/MConvectiveFast.cpp: MConvectiveFast::fillHookeOEquation", "libvvhd/src/MConvectiveFast.cpp: MConvectiveFast::fill_matrix"]}
{"id": "C78", "title": "Forces do not depend on the origin", "statement": "The same state described with another origin of coordinates has, with the same circulations and speeds, the same forces and moments of the fluid on the bodies.", "quantifier": "every space, shift and pair of solutions", "why_tests_cant": "tests keep bodies near the origin and compare no shifted runs", "anchors": ["libvvhd/src/MConvectiveFast.cpp: MConvectiveFast::fillHydroXEquation", "libvvhd/src/MConvectiveFast.cpp: MConvectiveFast::fillHydroYEquation", "libvvhd/src/MConvectiveFast.cpp: MConvectiveFast::fillSteadyEquationForSegment"]}
{"id": "C79", "title": "Generators accept exactly the tables they are documented for", "statement": "A generator returns a body exactly when the table holds its parameters and no others, each a finite number in its range and one of N and dl, and then the corners are those of its curve; otherwise it raises a Lua error naming the parameter.", "quantifier": "every table, every value including NaN, infinities and values that are no numbers", "why_tests_cant": "combinations of missing, extra and out-of-range parameters", "anchors": ["utils/vvflow/gen_body.cpp: get_param", "utils/vvflow/gen_cylinder.cpp: luavvd_gen_cylinder, luavvd_gen_semicyl", "utils/vvflow/gen_parallelogram.cpp: luavvd_gen_parallelogram", "utils/vvflow/gen_savonius.cpp: luavvd_gen_savonius", "utils/vvflow/gen_box.cpp: luavvd_gen_chamber_box", "utils/vvflow/gen_gis.cpp: luavvd_gen_chamber_gpj", "utils/vvflow/gen_plate.cpp: luavvd_gen_plate", "utils/vvflow/gen_ellipse.cpp: luavvd_gen_ellipse"]}
{"id": "C80", "title": "Corners are evenly spaced and no vertex is lost", "statement": "A generated curve is cut into equal parts piece by piece, the number of parts of a piece is the one nearest to its length over the spacing, parts are shorter than one and a half spacings, and the corners include both ends of every piece.", "quantifier": "every table accepted", "why_tests_cant": "a continuum of lengths and spacings, rounding at one half", "anchors": ["utils/vvflow/gen_body.cpp: gen_seg_dl, gen_arc_dl", "utils/vvflow/gen_parallelogram.cpp: luavvd_gen_parallelogram"]}
{"id": "C81", "title": "N is the number of corners", "statement": "A body generated with N given has N corners.", "quantifier": "every table accepted that holds N", "why_tests_cant": "a continuum of proportions of the pieces", "anchors": ["utils/vvflow/gen_cylinder.cpp: luavvd_gen_semicyl", "utils/vvflow/gen_parallelogram.cpp", "utils/vvflow/gen_savonius.cpp", "utils/vvflow/gen_plate.cpp"]}
{"id": "C82", "title": "Generated bodies have the area of their shape", "statement": "A generated parallelogram has the area L*H, a half cylinder that of half a regular polygon inscribed in the circle, at every spacing.", "quantifier": "every table accepted", "why_tests_cant": "a continuum of lengths and spacings", "anchors": ["utils/vvflow/gen_parallelogram.cpp", "utils/vvflow/gen_cylinder.cpp: luavvd_gen_semicyl", "utils/vvflow/gen_body.cpp"]}
{"id": "C83", "title": "The generated ellipse is symmetric and closes with the spacing asked for", "statement": "The loop placing corners ends; the corners lie on the ellipse, are symmetric to both axes and to the centre, and the two edges across the tips have exactly the spacing asked for.", "quantifier": "every table accepted", "why_tests_cant": "a loop with a step depending on the angle, ended by a comparison", "anchors": ["utils/vvflow/gen_ellipse.cpp: luavvd_gen_ellipse"]}
{"id": "C84", "title": "Appending to a list of objects adds all the given objects or none", "statement": "Appending a list of tables or objects adds a copy of each, in order, at the end; a bad element is reported as an error and leaves the list as it was; an object read from a list refers to the element at its index as long as no element was added beyond the room of the list.", "quantifier": "every list, every sequence of calls and every allocator", "why_tests_cant": "a reallocation moves the elements while userdata keep the old addresses; it happens at sizes the allocator picks", "anchors": ["utils/vvflow/lua_tobj.cpp", "utils/vvflow/lua_space.cpp"]}
{"id": "C85", "title": "A body lives as long as something refers to it", "statement": "After any sequence of script calls, the use count of a body equals the number of its handles plus its places in the body list; a body with a handle or in the list is alive; the root of a body is the body assigned last if that is alive and nil otherwise.", "quantifier": "every sequence of calls of a script, every moment of garbage collection", "why_tests_cant": "the collector runs at moments a test can not choose", "anchors": ["utils/vvflow/lua_tbody.cpp", "utils/vvflow/lua_bodylist.cpp", "libvvhd/headers/TBody.hpp"]}
{"id": "C86", "title": "Assigning a documented member from Lua changes that member and nothing else", "statement": "For every class and every documented member, including components of vectors: an accepted assignment makes the member read as the value assigned and leaves every other member as it reads; an error leaves all members unchanged and is raised exactly for undocumented names and values that are not of the type.", "quantifier": "every object, every path of names, every Lua value", "why_tests_cant": "thirty names bound to addresses by hand in two tables that have to agree", "anchors": ["utils/vvflow/lua_tbody.cpp", "utils/vvflow/lua_space.cpp", "utils/vvflow/lua_tvec.cpp", "utils/vvflow/lua_tvec3d.cpp", "utils/vvflow/lua_tobj.cpp", "utils/vvflow/getset.cpp"]}
{"id": "C87", "title": "Indexing and iterating a list gives its elements in order", "statement": "list[i] is the i-th element for 1 <= i <= #list and nil otherwise; a loop over the list visits each element once, in order, with its index.", "quantifier": "every list and every index", "why_tests_cant": "indices converted between int, size_t and pointers at the borders", "anchors": ["utils/vvflow/lua_bodylist.cpp", "utils/vvflow/lua_tobj.cpp"]}
{"id": "C88", "title": "vvawk.zeros prints the zeros of the piecewise linear function", "statement": "For every table vvawk.zeros prints, in the order of the rows, one zero of the piecewise linear function through the points (first column, selected column) for each row inside [xmin, xmax] where the column vanishes or changes its sign against the row before, and nothing else.", "quantifier": "every table of numbers, every column and range", "why_tests_cant": "zeros at rows and between rows, ranges cutting a segment, rows of zeros: unboundedly many configurations", "anchors": ["utils/scripts/vvawk.zeros"]}
{"id": "C89", "title": "vvawk.drv prints the differences of adjacent rows", "statement": "For every table vvawk.drv prints one line for each row but the first: the selected column holds the difference to the row before over the divisor, every other column is unchanged; so the printed values add up to the last value minus the first over the divisor.", "quantifier": "every table, every column and every divisor other than 0", "why_tests_cant": "unbounded tables; telescoping sums", "anchors": ["utils/scripts/vvawk.drv"]}
{"id": "C90", "title": "awk reads the columns of vvxtract's table", "statement": "When the table of vvxtract is read by a program that separates fields at blanks, the value of column j of dataset k in row i is field number (columns of the earlier datasets + j), as the heading suggests.", "quantifier": "every list of datasets, every row and column", "why_tests_cant": "any shape of datasets; breaks just when an earlier dataset ended above that row", "anchors": ["utils/vvxtract/vvxtract.cpp: main", "utils/scripts"]}
{"id": "C91", "title": "vvxtract -i shows what the file holds", "statement": "vvxtract without datasets prints the numbers of bodies, vortices, sources and streak particles as stored, per body its label, number of segments, slip and root, and then exits without printing a table.", "quantifier": "every file and every system of bodies", "why_tests_cant": "any numbers of bodies and every root relation", "anchors": ["utils/vvxtract/vvxtract.cpp: main"]}
{"id": "C92", "title": "The meshes of vvplot cover the picture", "statement": "The coarse and the fine mesh start at the lower left corner of the picture, have square cells, reach exactly from the left to the right border and have the smallest number of rows that reaches the upper one; circles have the wanted size in pixels.", "quantifier": "every combination of ranges and sizes with one missing dimension, every resolution", "why_tests_cant": "all real ranges and resolutions", "anchors": ["utils/vvplot/optparse.cpp: opt::parse"]}
{"id": "C93", "title": "A moving frame does not change the size of a plot", "statement": "With a reference frame the shown range is moved by the position of the reference in the directions asked for and nothing else: the width, the height and the lengths of both ranges stay.", "quantifier": "every frame, every position, every range", "why_tests_cant": "all real positions and ranges; a file without bodies", "anchors": ["utils/vvplot/vvplot.cpp: main_hdf"]}
{"id": "C94", "title": "Saving and loading a plot archive keeps the plot", "statement": "A plotter that was filled with files and a script, saved to an archive and loaded again has the same script and the same files, so the plot drawn from the archive is the one drawn directly.", "quantifier": "every sequence of files and script pieces, every content", "why_tests_cant": "any names and contents in any order", "anchors": ["utils/vvplot/gnuplotter.cpp: Gnuplotter::save, Gnuplotter::load", "utils/vvplot/gnuplotter.hpp"]}
{"id": "C95", "title": "gnuplot reads the data of each object that is drawn", "statement": "In the script handed to gnuplot each dataset name of the plot command is replaced by the descriptor of the file with the data of exactly that object, and nothing else in the script is changed.", "quantifier": "every combination of plot options, every list of bodies and labels, every assignment of descriptors", "why_tests_cant": "labels are arbitrary texts that can coincide with other parts of the script", "anchors": ["utils/vvplot/gnuplotter.cpp: Gnuplotter::exec", "utils/vvplot/vvplot.cpp: main_hdf"]}
{"id": "C96", "title": "The map of the stream function belongs to the map of velocity", "statement": "At every point where the flow is smooth the derivatives of the plotted stream function are the components of the plotted velocity, seen from the same frame.", "quantifier": "every flow with any vortices, sources and moving bodies, every such point", "why_tests_cant": "derivatives of sums over unbounded lists; a missing term looks like a plausible flow", "anchors": ["libvvhd/src/XStreamfunction.cpp: XStreamfunction::evaluate", "libvvhd/src/XVelocity.cpp: XVelocity::evaluate", "libvvhd/src/MConvectiveFast.cpp: MConvectiveFast::velocity"]}
{"id": "C97", "title": "Streamlines do not jump behind a source", "statement": "Along each side of a cell of the picture the corrected stream function changes by the flux through that side: the cut of the angle behind a source leaves no jump.", "quantifier": "every set of sources, every picture, every cell", "why_tests_cant": "the cut of each source runs through many cells; only positions relative to all nodes decide", "anchors": ["libvvhd/src/XStreamfunction.cpp: XStreamfunction::evaluate", "libvvhd/src/XIsoline.cpp: XIsoline::XIsoline"]}
{"id": "C98", "title": "The pressure map is a function of the flow alone", "statement": "The plotted pressure vanishes far from the bodies, does not depend on which other maps are plotted before or which corner of a body is the first, and is a number everywhere.", "quantifier": "every flow, every point", "why_tests_cant": "a limit at infinity and the influence of the order of commands", "anchors": ["libvvhd/src/XPressure.cpp: XPressure::evaluate", "libvvhd/src/XVorticity.cpp: XVorticity::evaluate"]}
{"id": "C99", "title": "A map holds at each node the value of that node for its settings", "statement": "After evaluate a map holds the value at the position of each node computed with its settings, in whatever order the threads run; settings that make no sense are refused.", "quantifier": "every map, all sizes, every order of execution", "why_tests_cant": "order of threads; values that pass all comparisons", "anchors": ["libvvhd/src/XVelocity.cpp: XVelocity::evaluate", "libvvhd/src/XVorticity.cpp: XVorticity::evaluate", "libvvhd/src/XPressure.cpp: XPressure::evaluate", "libvvhd/src/XStreamfunction.cpp: XStreamfunction::evaluate", "libvvhd/headers/XField.hpp: XField::map"]}
{"id": "C100", "title": "Beside a moving wall the velocity is that of the sources and circulation spread along it", "statement": "Closer to a segment of a body than its length, the part of the velocity the moving segment adds is the integral along the segment of the flow of the sources and the circulation given by the local speed of the wall, up to 1/(2 pi).", "quantifier": "every segment and point off the segment, every translation and rotation of the body, over the reals", "why_tests_cant": "the closed form must equal an integral for all geometries; an error linear in the rotation is small in tests with slow bodies", "anchors": ["libvvhd/src/MConvectiveFast.cpp: MConvectiveFast::SegmentInfluence_linear_source", "libvvhd/src/MConvectiveFast.cpp: MConvectiveFast::body_list_influence"]}
{"id": "C101", "title": "A file of the old format is loaded as its chapters say", "statement": "Loading a file of format 1.3 gives the header, the lists of objects, the bodies and their segments with the values written in the chapters the table points to, including which segment of a body carries the special boundary condition.", "quantifier": "every layout of the table, all chapters in any order with the segments behind their body, all sizes", "why_tests_cant": "the layout of the file is free, tests have a few files", "anchors": ["libvvhd/src/TSpace_load_v13.cpp: Space::load_v13", "libvvhd/src/TSpace_load_v13.cpp: LoadList", "libvvhd/src/TSpace_load_v13.cpp: read_shell_script"]}
{"id": "C102", "title": "A damaged or missing input file is reported", "statement": "When a file of the old format or a list of objects is missing, cut off or holds something that is no number, loading fails; otherwise every object of the file is appended in its order.", "quantifier": "every file, cut at every place", "why_tests_cant": "there are too many ways to damage a file", "anchors": ["libvvhd/src/TSpace_load_v13.cpp: Space::load_v13", "libvvhd/src/TSpace.cpp: Space::load_list_txt", "libvvhd/src/TSpace.cpp: Space::load_list_bin", "utils/vvflow/lua_objlist.cpp: objlist_load_txt", "utils/vvflow/lua_objlist.cpp: objlist_load_bin"]}
{"id": "C103", "title": "Each step adds one row with the velocities at all sensors", "statement": "With sensors given, the file of velocities has one row for every step: the time and the velocity at each sensor in the order of the sensor file; a resumed run continues it.", "quantifier": "any number of sensors and steps, every start", "why_tests_cant": "resuming from an arbitrary step", "anchors": ["utils/vvflow/sensors.cpp: sensors::loadFile", "utils/vvflow/sensors.cpp: sensors::output", "utils/vvflow/sensors.cpp: sensors::sensors"]}
{"id": "C104", "title": "Which walls of the generated chambers and plates slip, and where the sides of a cut plate lie", "statement": "gen_chamber_box gives a closed wall of five parts in this order: from the middle of the ceiling to the floor corner, slipping, cut in steps dls; the floor with the rounded edge of the hole, not slipping, steps dln; the outer side, slipping; the other edge and floor, not slipping; the rest, slipping. gen_chamber_gpj gives the same with the channel from X1 to the mouth not slipping; the face beside the mouth is cut in steps not longer than a fifth of it. gen_plate: the straight sides never slip and lie on the common tangents of the two circles of the whole plate, also when start or stop cut it; an end slips exactly if it is cut there, the arc at start has the interpolated radius, that at stop is larger by the gap, at least by one step.", "quantifier": "all tables of parameters that are accepted, over the reals", "why_tests_cant": "The slip flag is invisible in the shape; it only changes boundary conditions of later runs. Parameters are real numbers in unbounded ranges.", "anchors": ["utils/vvflow/gen_box.cpp:luavvd_gen_chamber_box", "utils/vvflow/gen_gis.cpp:luavvd_gen_chamber_gpj", "utils/vvflow/gen_plate.cpp:luavvd_gen_plate"]}
{"id": "C105", "title": "Loading takes from a file what it says, and new values for what it does not say", "statement": "After loading any file every quantity of the space and of its bodies is the attribute of the file, in all three versions of the tables of bodies; quantities the file does not mention are those of a new space and a new body; the loaded calculation can be saved again.", "quantifier": "all files, of whatever program and version, with attributes of the expected types", "why_tests_cant": "Round trips only use files the program itself wrote, in which nothing is missing", "anchors": ["libvvhd/src/TSpace_load_hdf.cpp: Space::load_hdf, dataset_read_body, dataset_read_list", "libvvhd/src/vvhdf.cpp: h5a_read", "libvvhd/src/TBody.cpp: TBody::TBody, TBody::validate"]}
{"id": "C106", "title": "Saving a loaded calculation again gives the same file", "statement": "A file that was saved, loaded (into a new space or over another one) and saved again has the same attributes, tables and lists as before: nothing drifts when a calculation is stopped and resumed, or edited by a script, many times.", "quantifier": "every space that can be saved, every space loaded over", "why_tests_cant": "an inequality in the last bit of one attribute of one body, or a change of order, shows only for particular values and body counts", "anchors": ["libvvhd/src/TSpace_save_hdf.cpp: Space::save_hdf, dataset_write_body, dataset_write_list", "libvvhd/src/TSpace_load_hdf.cpp: Space::load_hdf, dataset_read_body, dataset_read_list"]}
{"id": "C107", "title": "Arguments behind the script are passed to the script", "statement": "vvflow takes its own options wherever they stand and passes all other arguments, in order, to the script as arg[1], arg[2], …, the script itself as arg[0]; an option given twice has the value given last.", "quantifier": "all command lines", "why_tests_cant": "command lines combine without bound: spellings, abbreviations, clusters, order", "anchors": ["utils/vvflow/optparse.cpp: opt::parse", "utils/vvflow/vvflow.cpp: main", "utils/vvxtract/optparse.cpp: opt::parse"]}
{"id": "C108", "title": "vvplot accepts only values that make sense, in any order of options", "statement": "After a command line is accepted all ranges are finite and in order, sizes and resolutions are in range and at most one field is drawn; the order of different options does not matter and every option has an effect.", "quantifier": "all command lines and all ways sscanf may read numbers", "why_tests_cant": "an invariant over every combination and order of thirty options", "anchors": ["utils/vvplot/optparse.cpp: opt::parse"]}
{"id": "C109", "title": "Pictures written to a directory do not overwrite one another", "statement": "If the target is a directory the picture is named after the input without its extension; pictures of different inputs have different names; a target that is a file is used as it is.", "quantifier": "all inputs, targets and directories", "why_tests_cant": "collisions depend on dots and directories in names", "anchors": ["utils/vvplot/optparse.cpp: opt::parse"]}
{"id": "C110", "title": "A resumed calculation does not shed the heat of a step twice", "statement": "The step in which a saved calculation is resumed goes on with the same heat particles as the step in which it was saved.", "quantifier": "every saved calculation, any bodies and heat conditions", "why_tests_cant": "the particles lie on top of one another, so that only their number differs, after a restart", "anchors": ["utils/vvflow/vvflow.cpp: simulate, main", "libvvhd/src/MFlowmove.cpp: MFlowmove::heat_shed", "libvvhd/src/TSpace_load_hdf.cpp: Space::load_hdf"]}
{"id": "C111", "title": "A script finds its calculation under the name it saved it to", "statement": "S:save(name) writes the file of that name and no other; S:load(name) then gives the same calculation; a save that is refused leaves the earlier file as it was; a load that returns has read a whole file of that name.", "quantifier": "every name, calculation and state of the disk", "why_tests_cant": "names are used as formats of a limited length and refusals happen before or after the file is opened", "anchors": ["utils/vvflow/lua_space.cpp: space_save, space_load", "libvvhd/src/TSpace.cpp: Space::save, Space::load"]}
{"id": "C112", "title": "A vector taken out of a body is the member itself", "statement": "Keeping a vector of a body in a variable of a script (p = b.holder_pos, q = p.r) and reading, copying or assigning through it later is the same as reading, copying or assigning the member of the body by its full path, and changes nothing else, whatever the script did in between.", "quantifier": "every script (sequence of calls on bodies, lists, members and vectors, with collection of unused bodies at any time), every vector taken, every later use", "why_tests_cant": "the vector is a bare pointer; a wrong use reads freed memory and usually works, depending on when Lua collects garbage", "anchors": ["utils/vvflow/lua_tvec.cpp:106-116", "utils/vvflow/lua_tvec3d.cpp:118-128", "utils/vvflow/lua_tbody.cpp:148-154"]}
{"id": "C113", "title": "The shape a script reads is that of the corners", "statement": "get_slen, get_area, get_cofm and get_moi_cofm of a body give the length, area, centre of mass and moment of inertia of the closed polygon through the corners that totable shows, after any sequence of motions and assignments of corners and members.", "quantifier": "every body and every sequence of calls, over the reals", "why_tests_cant": "stored values go stale only after particular sequences of calls; no run checks them against the corners", "anchors": ["utils/vvflow/lua_tbody.cpp:64-146", "libvvhd/src/TBody.cpp:179-215", "libvvhd/src/TBody.cpp:283-343"]}
{"id": "C114", "title": "The far field a particle gets is close to that of the far vortices", "statement": "In exact arithmetic the velocity a particle gets from the far nodes of its leaf differs from the sum over all vortices of these nodes, one by one, by at most 6 per cent of the speed their strengths would give from the centres of the nodes, divided by 2 pi; near and far nodes together hold every vortex once.", "quantifier": "every list of bodies, vortices, heat and streak particles within the range of the numbers, all limits of the nodes, every leaf and every point in its box", "why_tests_cant": "a test compares a few configurations with direct summation within a tolerance and cannot tell the worst placement of vortices within the far nodes", "anchors": ["libvvhd/src/TSortedTree.cpp:101-137", "libvvhd/src/TSortedTree.cpp:150-217", "libvvhd/src/MConvectiveFast.cpp:37-86"]}
{"id": "C115", "title": "The velocity at a point is close to that of all vortices", "statement": "In exact arithmetic the part of MConvectiveFast::velocity(p) that comes from vortices differs from the sum over all of them by no more than the bound of the far field, wherever the point is: velocity and pressure maps and sensors show the flow of the vortices.", "quantifier": "every list of objects, all limits of the nodes, every point of the plane", "why_tests_cant": "the error is large only for points beside a dividing line of the tree whose leaf is elsewhere; such points depend on the positions of all objects", "anchors": ["libvvhd/src/MConvectiveFast.cpp:20-34", "libvvhd/src/MConvectiveFast.cpp:122-151", "libvvhd/src/TSortedTree.cpp:284-303", "utils/vvflow/sensors.cpp:60-72", "libvvhd/src/XVelocity.cpp:55-64"]}
{"id": "C116", "title": "The circulation of flow and bodies does not drift", "statement": "In exact arithmetic, if a body is without Kutta condition: after shedding in every step, the circulation of all vortices, of the segments that keep theirs and of the rotation of the bodies (twice area times angular speed) is minus inf_circulation; at the end of the step only the circulation of the removed weak vortices is missing. Over any number of steps a body without Kutta condition, other than the first such body, gives to the flow exactly what it had absorbed, with its rotation, at the start less that at the end. The first body makes up for the weak vortices removed in the step before.", "quantifier": "all spaces, bodies, motions and solutions of the linear system, any number of steps", "why_tests_cant": "a drift of circulation is the sum of small errors over many thousand steps and needs the solved system, shedding, motion and absorption together", "anchors": ["libvvhd/src/MConvectiveFast.cpp:252-267", "libvvhd/src/MConvectiveFast.cpp:494-522", "libvvhd/src/MFlowmove.cpp:61-212", "libvvhd/src/MFlowmove.cpp:215-233", "libvvhd/headers/TSpace.hpp:93-99", "utils/vvflow/vvflow.cpp:215-264"]}
{"id": "C117", "title": "The exit status tells how a calculation ended", "statement": "If vvflow ends with status 0 and the script itself does not ask for status 0, every call of simulate() has made all its steps up to finish, or was refused because re is not positive. A Lua error that no pcall takes ends the script at that point with status 8, and status 8 always comes from such an error or from a script that does not parse. Errors in loading, an unsolvable system and failed writes give other statuses or an abort.", "quantifier": "all command lines, files, scripts, sequences of calls and failures at any step", "why_tests_cant": "a test sees one way of failing at a time; the claim is that no mixture of failures, pcall and repeated calculations can end with status 0", "anchors": ["utils/vvflow/vvflow.cpp:137-175", "utils/vvflow/vvflow.cpp:177-192", "utils/vvflow/vvflow.cpp:214-272", "utils/vvflow/lua_space.cpp:8-26", "utils/vvflow/optparse.cpp:34-94", "libvvhd/src/TMatrix.cpp:61", "libvvhd/src/TSpace_load_v13.cpp:56"]}
{"id": "C118", "title": "The place of the flow does not matter", "statement": "If all bodies, vortices, heat particles and sources are moved by the same vector, the search tree is the moved tree with the same objects in the same leaves, the velocity at the moved point and the velocities of the moved particles are the same, and so are radii, merges, diffusive velocities and friction on the walls. In binary64 arithmetic this fails far from the origin.", "quantifier": "all flows, all displacements, all points and particles", "why_tests_cant": "tests move one flow by one vector and compare with a tolerance; one absolute coordinate in the criteria of the tree or in a kernel changes only some flows", "anchors": ["libvvhd/src/MConvectiveFast.cpp:20-215", "libvvhd/src/MConvectiveFast.cpp:440-457", "libvvhd/src/TSortedTree.cpp:36-303", "libvvhd/src/MEpsilonFast.cpp:11-256", "libvvhd/src/MDiffusiveFast.cpp:16-127"]}
{"id": "C119", "title": "Only the relative speed of flow and bodies matters", "statement": "If the speed of the oncoming flow, the speeds of all bodies and the prescribed speeds of the bodies that are not held by another one all grow by the same vector, the solutions of the linear system are the same ones with the speeds grown by that vector: circulations, hydrodynamic forces and forces on the holders do not change. A body at rest in a stream is a body moved through still fluid. Without a pending collision and without damping of springs along x and y.", "quantifier": "all sets of bodies, attached or not, all speeds, all states of the flow", "why_tests_cant": "a test compares one body in a stream with the same body towed; a term with an absolute speed in one of nine equations shows only for bodies that turn, have mass or hold others", "anchors": ["libvvhd/src/MConvectiveFast.cpp:458-743", "libvvhd/src/MConvectiveFast.cpp:754-865", "libvvhd/src/MConvectiveFast.cpp:880-1003"]}
{"id": "C120", "title": "The units of length and speed do not matter", "statement": "If all lengths are multiplied by k, all speeds by s, hence times by k/s, circulations by k*s, forces by k*s^2 and the viscosity by k*s, then the velocities of the particles, the solutions of the linear system, the core radii and the lower bounds of the radii are those of the first calculation in the new units. Only ratios such as the Reynolds number matter.", "quantifier": "all flows, all bodies, attached or not, with springs, mass, gravity and collisions, all positive factors", "why_tests_cant": "a test runs one case in two units and compares numbers that differ by rounding; a missing factor in one term of one equation is visible only for bodies that use this term, and an absolute length in a rule is visible only when the rule is at its limit", "anchors": ["libvvhd/src/MConvectiveFast.cpp:20-215", "libvvhd/src/MConvectiveFast.cpp:275-411", "libvvhd/src/MConvectiveFast.cpp:440-1003", "libvvhd/src/MDiffusiveFast.cpp:16-127", "libvvhd/src/MEpsilonFast.cpp:29-60", "libvvhd/src/MEpsilonFast.cpp:128-216"]}
{"id": "C121", "title": "A file that loads is a file whose save succeeded", "statement": "When a script has ended, every file it saved to holds one of the spaces it saved, completely, or what was there before its first save; a save that was refused can be repeated under the same name once its cause is removed; a load that fails is an error the script can catch.", "quantifier": "all scripts that save any spaces under any names, with saves that are refused at any point", "why_tests_cant": "a test that provokes a refusal looks at the error message; that the file stays open and is completed when the program ends shows only if a later program loads it", "anchors": ["utils/vvflow/lua_space.cpp:8-26", "libvvhd/src/TSpace.cpp:38-83", "libvvhd/src/TSpace_save_hdf.cpp:165-222", "libvvhd/src/vvhdf.cpp:13-18"]}
{"id": "C122", "title": "The directions of the axes do not matter", "statement": "If a flow is turned as a whole, the velocities of the particles, convective and diffusive, are the turned ones, and the core radii, the friction on the walls and the choice of the particles that merge stay as they are. If it is turned by a right angle, with the springs and limits along x and y changing places, the solutions of the linear system are the turned ones: circulations stay, speeds and forces turn.", "quantifier": "all flows, all bodies, attached or not, with springs, mass and gravity, all angles for the particles, the right angle for the linear system, no collision pending", "why_tests_cant": "a test compares two runs that differ by rounding; a wrong sign or a coordinate taken from the wrong place in one of the two equations for x and y is visible only for bodies that use it, and the two equations are written out separately in the code", "anchors": ["libvvhd/src/MConvectiveFast.cpp:20-215", "libvvhd/src/MConvectiveFast.cpp:275-411", "libvvhd/src/MConvectiveFast.cpp:440-1003", "libvvhd/src/MDiffusiveFast.cpp:16-127", "libvvhd/src/MEpsilonFast.cpp:29-60", "libvvhd/src/MEpsilonFast.cpp:128-216"]}
{"id": "C123", "title": "gpquick draws what was asked for", "statement": "gnuplot gets from gpquick the settings that belong to the options, no others, one plot of the given columns, and the end. The picture goes to the file that was named. gnuplot runs exactly if a file was named, the script is printed if it was asked for or nothing runs, and the exit status is 0 exactly if gnuplot ends well.", "quantifier": "all combinations of options, all names of files, ranges and columns", "why_tests_cant": "names and column expressions are arbitrary texts that end up inside a program for another interpreter", "anchors": ["utils/scripts/gpquick:96-146"]}
{"id": "C124", "title": "vvencode shows its usage exactly if arguments are missing", "statement": "vvencode shows its usage and ends if fewer than two arguments are given, and otherwise goes to work.", "quantifier": "all numbers of arguments", "why_tests_cant": "the numbers for which it fails are those nobody tries", "anchors": ["utils/scripts/vvencode:3-6"]}
{"id": "C125", "title": "A flow and its mirror image", "statement": "If a flow is mirrored at the axis of x, with vortices turning the other way and the bodies passed in the other direction, all velocities, convective and diffusive, and the series for far vortices are the mirrored ones and the friction on every wall changes sign. The core radii and the choice of the particles that merge are the same. A flow of vortices and sources that is its own mirror image has no velocity across the axis.", "quantifier": "all flows, all bodies, at rest or moving, all points that are no corners of bodies", "why_tests_cant": "a computed flow leaves its symmetry after some time because of rounding, so a test cannot tell a kernel that prefers one side from the growth of rounding errors", "anchors": ["libvvhd/src/MConvectiveFast.cpp:20-215", "libvvhd/src/MConvectiveFast.cpp:440-457", "libvvhd/src/MDiffusiveFast.cpp:16-127", "libvvhd/src/MEpsilonFast.cpp:29-60", "libvvhd/src/MEpsilonFast.cpp:128-256"]}
{"id": "C126", "title": "The order of bodies and particles", "statement": "The order in which bodies, vortices and sources are listed does not matter: with the bodies in another order, and their roots found under the new numbers, the circulations, speeds and forces are those of the same bodies, and all velocities, convective and diffusive, and the friction are the same.", "quantifier": "all states, all orders of any number of bodies, vortices, sources and walls, all sources of flow", "why_tests_cant": "a test compares a few orders; with a single body without the Kutta condition, which is the usual case, no order shows that the first such body is treated in another way than the others", "anchors": ["libvvhd/src/MConvectiveFast.cpp:20-215", "libvvhd/src/MConvectiveFast.cpp:458-523", "libvvhd/src/MConvectiveFast.cpp:880-980", "libvvhd/src/MDiffusiveFast.cpp:16-127"]}
{"id": "C127", "title": "Two flows mixed", "statement": "If two flows about the same bodies are mixed in any proportion (stream, free vortices, gravity, prescribed speeds, torques, wall circulations), then circulations, speeds and forces that solve the linear system, the velocity everywhere, the series of the far cells and the friction are mixed in the same proportion.", "quantifier": "all pairs of states with the same bodies and particle places, all proportions, all points", "why_tests_cant": "a test mixes two flows in one proportion; the columns left out for bodies that do not turn and the bodies left out because they are slow show only in mixtures that start or stop moving", "anchors": ["libvvhd/src/MConvectiveFast.cpp:20-215", "libvvhd/src/MConvectiveFast.cpp:440-523", "libvvhd/src/MConvectiveFast.cpp:525-800", "libvvhd/src/MDiffusiveFast.cpp:92-127"]}
{"id": "C128", "title": "What vvencode gives to ffmpeg", "statement": "vvencode passes the file mask to ffmpeg unchanged as its input, the output name as the last argument, the words of the third argument in front of it, and the comment stored in the first file as metadata; further arguments have no effect.", "quantifier": "all arguments, all directories, all comments", "why_tests_cant": "tests use file names without blanks; a name is split, expanded or lost only for other names", "anchors": ["utils/scripts/vvencode:3-16"]}
{"id": "C129", "title": "What is at rest stays at rest", "statement": "Bodies of the density of the fluid or without gravity, with relaxed springs and no prescribed speed, in a fluid without stream, sources and vortices stay in their place through any number of steps: the linear system has the solution zero, no vortex is shed, nothing moves, and the velocity is zero at every point. These conditions are the only ones: if bodies at rest stay without motion and force, then no speed is prescribed, none is pulled by gravity, and all springs are relaxed.", "quantifier": "all sets of bodies, all chains of roots, all numbers of steps, all points", "why_tests_cant": "a test shows small numbers for one set of bodies; that every right side vanishes and no term of a step makes a motion of its own needs all equations", "anchors": ["libvvhd/src/MConvectiveFast.cpp:20-215", "libvvhd/src/MConvectiveFast.cpp:440-1017", "libvvhd/src/MFlowmove.cpp:19-233", "libvvhd/src/TSpace.cpp:122-143", "libvvhd/src/MDiffusiveFast.cpp:92-127"]}
{"id": "C130", "title": "A printed number reads back as itself to the digits printed", "statement": "A double printed with %g or %e by vvxtract, vvflow's sensors or tostring in a script reads back as a number that differs by at most half a unit of the last digit, exactly if it has no more digits than are printed, in the same order as the numbers printed, with its sign, and as inf or nan if it is that. The printed parts of a vector or an object can be told apart, and a column of vvxtract's table has 13 characters and is read by awk as the value to seven digits. Different doubles, and different times in the sensors file, can print alike.", "quantifier": "all doubles, all numbers of digits from one on, all pairs of doubles, all tables", "why_tests_cant": "a test prints a few numbers; rounding up to a power of ten, the change between the two notations of %g and trailing zeros occur at particular digits", "anchors": ["utils/vvxtract/vvxtract.cpp:92-168", "utils/vvxtract/vvxtract.cpp:243", "utils/vvflow/sensors.cpp:58-70", "utils/vvflow/lua_tvec.cpp:19-23", "utils/vvflow/lua_tvec3d.cpp:10-14", "utils/vvflow/lua_tobj.cpp:7-11", "libvvhd/headers/TTime.hpp:54"]}
{"id": "C131", "title": "The settings that vvxtract -i prints are assignments that restore them", "statement": "Each line of vvxtract -i on a space or body is a Lua assignment to a name by which a script sets the very member printed, and its value stands for what the member holds: times, whole numbers and texts without apostrophe, backslash or newline exactly, other numbers to six digits. Every member that a script can set has its line, except the caption, which is not printed. A text with an apostrophe is printed as no Lua text, a body with both kinds of walls gets an assignment of nil that is refused, and numbers of more than six digits are changed.", "quantifier": "all spaces and bodies, all members, all doubles and texts", "why_tests_cant": "a test compares one listing; that each of the names, members and conversions fit the tables of the Lua binding needs all rows and all values", "anchors": ["utils/vvxtract/vvxtract.cpp:86-147", "utils/vvflow/lua_space.cpp:45-70", "utils/vvflow/lua_tbody.cpp:163-212", "libvvhd/headers/TTime.hpp:54"]}
{"id": "C132", "title": "Without a step vvplot draws streamlines at 33 or 34 levels across the whole range", "statement": "If no step is given, vvplot draws the streamlines at levels that start at the smallest value of the map of the stream function, rise in equal steps of a 33rd of the range and stop at the largest value: the building ends, with 33 or 34 levels, each within the range and near its place. A given step is used whatever the map holds. A map with one value only, as for a fluid at rest, or with a NaN in its first node makes vvplot abort, and an infinite value leaves no usable level.", "quantifier": "all maps of any size with finite single precision values, all given steps", "why_tests_cant": "the last level depends on the rounding of 33 sums, and close values of large size on the resolution of a double; a test sees a few maps", "anchors": ["utils/vvplot/vvplot.cpp:366-373", "utils/vvplot/vvplot.cpp:550-557", "libvvhd/src/XIsoline.cpp:20-67", "libvvhd/src/XField.cpp:79-93"]}
{"id": "C133", "title": "vvplot's colour scales are in order and cover the values", "statement": "If no range is given, the colours of a velocity map go from its smallest to its largest value, and the five printed places of the colours rise from one end of the printed range to the other, with the middle colour at zero, whenever the range holds zero; those of a vorticity map go from -G to G with G above zero, and at most one in fifty of the nodes with vorticity lies beyond each end. If all velocities are above zero the places are out of order, which gnuplot refuses, and without any vorticity G is read from outside of an array.", "quantifier": "all maps with finite single precision values, all given ranges, all implementations of partial_sort that keep the promise of the C++ standard", "why_tests_cant": "order must hold after division, rounding and printing with six digits; the share of the values left out depends on the rounding of the rank", "anchors": ["utils/vvplot/vvplot.cpp:184-196", "utils/vvplot/vvplot.cpp:285-296", "libvvhd/src/XField.cpp:79-122"]}
{"id": "C134", "title": "vvplot draws the isobars of every range it takes", "statement": "For every range PMIN,PMAX of the option -P that holds numbers up to 2^1021 and is wide for its numbers (at least 2^-40 of the larger one and at least 2^-950), the isobars are drawn from PMIN in 33 equal steps, and rounding decides only whether that at PMAX is drawn. The option takes other ranges too: with PMIN = PMAX the program ends by an exception, with two neighbouring numbers it never ends, and with numbers far apart it draws one isobar only.", "quantifier": "all pairs of doubles", "why_tests_cant": "whether the loop over the levels ends depends on rounding in each addition; a test sees some ranges only", "anchors": ["utils/vvplot/vvplot.cpp:231-254", "utils/vvplot/optparse.cpp:231-245", "libvvhd/src/XIsoline.cpp:25-72"]}
{"id": "C135", "title": "Numbers vvplot writes with fixed places are those of the calculation", "statement": "Every finite double that vvplot writes with p places after the point (sizes of circles and arrows, the time, the ends of the colour scale) is read back to half a unit of the last place, exactly if it has no further places, in order, and without characters that would break the command around it. A circle of radius 1/40000 or more is therefore drawn to two per cent. It is not for smaller ones: below half a millionth the radius is written as zero, as for all vortices in a picture of 0.0003 by 0.0002, and both ends of a colour scale, or the times of two pictures, can get the same label.", "quantifier": "all finite doubles and all numbers of places", "why_tests_cant": "rounding with ties and carries over all digits; a test compares some numbers only", "anchors": ["utils/vvplot/vvplot.cpp:165", "utils/vvplot/vvplot.cpp:195-196", "utils/vvplot/vvplot.cpp:325", "utils/vvplot/vvplot.cpp:430-442", "utils/vvplot/optparse.cpp:440"]}
{"id": "C136", "title": "vvplot draws bodies with closed outlines and vortices with the colour of their sign", "statement": "The outline of a body with corners within the range of floats goes through all its corners in order, each to one part in 2^24, and back to the first point; every vortex is drawn, in order, with one colour for positive and another for negative circulation if that is at least the smallest float. Otherwise it is not so: a body without corners is undefined behaviour, a unit square a hundred million away becomes one point, and a positive circulation of at most half the smallest float has the colour of negative ones.", "quantifier": "all lists of corners and vortices of doubles", "why_tests_cant": "depends on the rounding of every coordinate to float, including subnormal numbers", "anchors": ["utils/vvplot/vvplot.cpp:154-162", "utils/vvplot/vvplot.cpp:308-327", "utils/vvplot/vvplot.cpp:383-408"]}
{"id": "C137", "title": "vvplot draws the holder and the spring of every body", "statement": "With --holder or --spring there is one line for each body with the place of its holder, and one with the place of its axis (holder plus deviation) and the arrow from there to the holder, every number to six digits. The arrow ends at the holder up to six digits of the place of the axis. That is not enough for far bodies: ten million away the arrow of a spring of length one ends beside the holder.", "quantifier": "all lists of bodies with finite places", "why_tests_cant": "printing rounds every number by itself, so an arrow and its ends need not fit together", "anchors": ["utils/vvplot/vvplot.cpp:410-425", "libvvhd/headers/TBody.hpp:124"]}
