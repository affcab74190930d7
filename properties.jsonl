{"id": "C01", "title": "Layer markers are numbered consecutively and match LayerCount", "statement": "Whatever commands are queued, the text written by ToOutput contains exactly LayerCount() lines of the form ';LAYER:k', and they carry k = 0, 1, 2, ... in this order, across all groups of layers.", "quantifier": "all command lists, all settings, all coordinates (any arithmetic), whenever generation does not panic", "why_tests_cant": "the numbering must survive every split of the layers into groups separated by bed rotations; tests sample a handful of models", "anchors": ["gcode/cmds.go:LayersMoving.ToGCode", "gcode/gcode.go:ToOutput", "gcode/gcode.go:LayerCount"]}
{"id": "C02", "title": "Fan policy", "statement": "When a printer executes the generated text, at every print move of layer 0 the fan is off if FanOffLayer1 is set and on otherwise, and at every print move of every later layer it is on; M106/M107 are emitted only when the fan actually has to change.", "quantifier": "all command lists and settings", "why_tests_cant": "fan state is carried across commands; only an invariant over all command sequences covers every history", "anchors": ["gcode/cmds.go:switchFanGCode", "gcode/cmds.go:LayersMoving.ToGCode"]}
{"id": "C03", "title": "Print moves run at the configured speed (no retraction, no bed motion)", "statement": "With retraction off and no bed rotation/tilt commands, every extruding move in the generated text executes at the configured feedrate: PrintSpeedLayer1 on layer 0, PrintSpeedWall for wall paths and PrintSpeed for fill paths on later layers.", "quantifier": "all layer-only command lists, all positive speeds", "why_tests_cant": "the emitter suppresses redundant F words using remembered state, so correctness depends on the whole history", "anchors": ["gcode/cmds.go:printSpeedToGCode", "gcode/cmds.go:pathesToGCode"]}
{"id": "C04", "title": "Retraction and bed motion corrupt the remembered feedrate", "statement": "The remembered feedrate is not updated by the F word of a retraction or of a bed rotation/tilt, so print moves following them are executed at RetractionSpeed (resp. 300) instead of the configured speed: with retraction on, every print move of a path runs at RetractionSpeed whatever the configured speeds are, and after a tilt the layers run at F300 when the configured speed has not changed.", "quantifier": "all programs with retraction on; all programs where a bed command precedes layers at an unchanged speed", "why_tests_cant": "the defect appears only for particular histories of commands", "anchors": ["gcode/cmds.go:retractionToGCode", "gcode/cmds.go:InclineX.ToGCode", "gcode/cmds.go:RotateZ.ToGCode"]}
{"id": "C05", "title": "Extruder position never decreases while printing", "statement": "Along every path the E values written on consecutive print moves never decrease, for finite coordinates and extrusion settings whose computed filament-rate factors (4*LineWidth*LayerHeight and pi*BarDiameter^2) are positive, in IEEE double arithmetic including overflow to infinity. Without positivity it fails: with LineWidth 0 and an overflowing distance the register becomes NaN.", "quantifier": "all paths with non-NaN coordinates, all nonnegative finite settings with positive bar diameter, float64 arithmetic", "why_tests_cant": "needs the monotonicity of rounded addition for every double, not a sample", "anchors": ["gcode/cmds.go:pathesToGCode"]}
{"id": "C06", "title": "Extruded filament is proportional to the printed length", "statement": "In exact arithmetic the E register after printing a group of paths has grown by exactly 4*LineWidth*LayerHeight*L/(pi*BarDiameter^2), where L is the total length of the paths, whatever the layers before; and each E word written is that exact value rounded to 3 decimals (no accumulated rounding error).", "quantifier": "all layers, settings with positive bar diameter, exact real arithmetic", "why_tests_cant": "accumulation over arbitrarily many segments", "anchors": ["gcode/cmds.go:pathesToGCode", "primitives/utils.go:StrF"]}
{"id": "C07", "title": "E register is reset before it grows without bound", "statement": "After every layer the emitter's E register is not above 4000; when it would be, exactly one 'G92 E0' line is written and the register restarts at zero, so that printer and emitter agree on E (to the 3 written decimals) after every layer.", "quantifier": "all command lists and settings, any arithmetic", "why_tests_cant": "history-dependent register shared by emitter and printer", "anchors": ["gcode/cmds.go:decreaseEOff"]}
{"id": "C08", "title": "Bed rotation and tilt reach the commanded absolute angle", "statement": "After executing the output of any command list, the physical rotation of axis T1 equals (to the written 3 decimals) the angle of the last RotateZ command (0 if none), the physical displacement of the tilt axis T2 is 60 after a last InclineX and 0 after a last InclineXBack (or none), and tool T0 is selected. Bed commands change neither the print moves nor the E register: they are those of the same program without the bed commands.", "quantifier": "all command lists, settings and finite angles", "why_tests_cant": "the absolute angle is reached by relative motion bookkeeping over the full history of commands", "anchors": ["gcode/cmds.go:RotateZ", "gcode/cmds.go:InclineX", "gcode/cmds.go:InclineXBack"]}
{"id": "C09", "title": "Where the head really goes: axis words are dropped only for sub-micron-scale steps, but drift is unbounded", "statement": "If on each axis every step of a path is either zero or at least 0.001, the head is at the written position of every vertex when the vertex's move ends. Without this guard the claim is false and the error is unbounded: for every distance D there is a path on which the head ends more than D away from the path's end.", "quantifier": "all paths (positive half, any start state); for every D (negative half); exact arithmetic for geometry", "why_tests_cant": "the deviation grows with path length, so no fixed-size test exhibits the unboundedness or establishes the guard", "anchors": ["primitives/point.go:StringGcode", "gcode/cmds.go:pathesToGCode"]}
{"id": "C10", "title": "Travel moves between paths", "statement": "With retraction off, before each path the head rises at the place where the previous path ended to 0.5 above that path's end height, travels to 0.5 above the new path's first vertex and descends on it; none of these moves extrudes, and extrusion starts exactly at the first vertex.", "quantifier": "all lists of nonempty paths, all states", "why_tests_cant": "sequencing over arbitrarily many paths and groups", "anchors": ["gcode/cmds.go:pathesToGCode", "primitives/point.go:StringDelta", "primitives/point.go:StringDeltaZ"]}
{"id": "C11", "title": "Generated text is well-formed G-code", "statement": "Every line written by ToOutput is accepted by a G-code reader (comment, or command letter+number followed by letter+number words), reading the text back gives exactly the intended sequence of instructions, and if coordinates, angles and E values are finite no numeric word is NaN or Inf.", "quantifier": "all command lists and settings", "why_tests_cant": "text format must be unambiguous for every number printed", "anchors": ["gcode/cmds.go", "primitives/utils.go:StrF", "primitives/point.go:String"]}
{"id": "C12", "title": "Printed numbers are correct to half a thousandth", "statement": "For every finite float64, StrF writes an optional minus sign, an integer part without superfluous zeros, a dot and exactly three digits, and the decimal written differs from the float by at most 0.0005; reading the text back returns that decimal.", "quantifier": "all finite float64 values", "why_tests_cant": "2^64 inputs", "anchors": ["primitives/utils.go:StrF"]}
{"id": "C13", "title": "The Flow setting has no effect", "statement": "Two settings that differ only in Flow produce the same output for every command list (the documented printing-flow option is ignored).", "quantifier": "all command lists, all settings, all flow values", "why_tests_cant": "non-interference over all inputs", "anchors": ["gcode/gcode.go:GcodeSettings", "gcode/cmds.go:pathesToGCode", "cmd/goosli/goosli.go:settings"]}
{"id": "C14", "title": "Every vertex of every path is visited in order", "statement": "The sequence of head targets in the output (first vertex of each path by a travel move, each further vertex by a print move) is exactly the sequence of vertices of Paths, MiddlePs, InnerPs and Fill of each layer, in this order, with one print move per consecutive vertex pair and no others.", "quantifier": "all layer lists without empty paths", "why_tests_cant": "structure preservation for every layer list", "anchors": ["gcode/cmds.go:LayersMoving.ToGCode", "gcode/cmds.go:pathesToGCode"]}
{"id": "C15", "title": "Retraction is written as an absolute E move", "statement": "With retraction on, each retraction writes E = -RetractionDistance regardless of the current E, while the generated header selects absolute extrusion (M82); so when executed the filament moves by -(E+RetractionDistance), not by -RetractionDistance, and the two agree only when the register is 0.", "quantifier": "all states, all settings", "why_tests_cant": "depends on the accumulated E of the whole print", "anchors": ["gcode/cmds.go:retractionToGCode", "data/header_template.txt"]}
{"id": "C16", "title": "Binary STL round-trip", "statement": "Loading the bytes written by SaveSTL yields as many triangles as were saved, in the same order, each vertex coordinate being the saved one rounded to float32 and each normal recomputed from the vertices; saving and loading again changes no vertex (float32 meshes round-trip exactly).", "quantifier": "all meshes with fewer than 2^32 triangles, NaN and infinite coordinates included", "why_tests_cant": "all meshes, all 64-bit coordinate patterns", "anchors": ["primitives/stl.go:SaveSTL", "primitives/stl.go:LoadSTL", "primitives/stl.go:loadSTLBinary"]}
{"id": "C17", "title": "STL format detection", "statement": "LoadSTL reads a file as binary if and only if it has at least 84 bytes and its size is exactly 84 + 50*count with count the little-endian word at offset 80; a binary file that is truncated or has trailing bytes is never read as a shorter binary mesh; files shorter than 84 bytes are rejected with an error, even valid ASCII ones.", "quantifier": "all byte strings", "why_tests_cant": "all files", "anchors": ["primitives/stl.go:LoadSTL"]}
{"id": "C18", "title": "ASCII STL reading", "statement": "For every list of triangles printed in ASCII STL form (vertex lines, arbitrary other lines not starting with 'v' between them) the loader returns exactly those triangles in order; in general it returns one triangle per three accepted vertex lines and drops an incomplete last group.", "quantifier": "all line lists, any number parser", "why_tests_cant": "all files", "anchors": ["primitives/stl.go:loadSTLAscii"]}
{"id": "C19", "title": "SaveSTL can report success for an incomplete file", "statement": "Because the result of the final flush is ignored, for every mesh there is a disk limit for which SaveSTL returns no error although the file is not the complete encoding; and conversely if the disk accepts all bytes the file is complete. An error is returned only if a write fails before the final flush.", "quantifier": "all meshes, every point at which the disk stops accepting bytes", "why_tests_cant": "fault injection at every byte", "anchors": ["primitives/stl.go:SaveSTL"]}
{"id": "C20", "title": "Parallel loops are schedule-independent", "statement": "For every number of workers >= 1 and every interleaving of their steps, the strided parallel loops (copying triangles, decoding a binary STL) terminate and produce the sequential result; each index is written exactly once.", "quantifier": "all worker counts, all interleavings, all lengths", "why_tests_cant": "schedules cannot be enumerated by tests", "anchors": ["primitives/utils.go:DoInParallelAndWait", "primitives/mesh.go:CopyTriangles", "primitives/stl.go:loadSTLBinary"]}
{"id": "C21", "title": "Slicing pipeline: result independent of the schedule, no deadlock", "statement": "For every number of workers >= 1 and every interleaving of producer, workers and collector over the two buffered channels, the pipeline never deadlocks, performs a bounded number of steps, and the collected layers sorted by Order are exactly the layers of jobs 0..n-1 computed sequentially.", "quantifier": "all job lists, worker counts and schedules", "why_tests_cant": "schedules cannot be enumerated by tests", "anchors": ["slicers/slice_by_vector.go:SliceByVector", "slicers/slice_by_vector.go:slicingWorker", "primitives/utils.go:DoInParallel"]}
{"id": "C22", "title": "The sweep hands every layer all triangles it meets", "statement": "In SliceByVector the worker of layer i is handed every triangle (of the mesh and of the supports) as often as it occurs, except triangles that the layer's plane misses, and no triangle that lies entirely above the plane; hence the segments of every returned layer are exactly the sections of its plane with all triangles, in some order. This holds for every mesh and any order in which the sort leaves ties. (Triangles entirely below the plane may be handed over; they contribute nothing.)", "quantifier": "all meshes, all directions, supports on or off (exact arithmetic); all finite meshes for direction AxisZ without supports in float64 (handing over)", "why_tests_cant": "incremental active list over arbitrarily many layers and triangles", "anchors": ["slicers/slice_by_vector.go:SliceByVector", "primitives/triangle.go:MinZ", "primitives/triangle.go:MaxZ"]}
{"id": "C23", "title": "Layer heights", "statement": "For positive layer height and a mesh of positive extent h along the unit direction, SliceByVector cuts n = ceil(h/LayerHeight) planes, orthogonal to the direction, at heights min + (i+1/2)*h/n: equally spaced by at most LayerHeight, all strictly between bottom and top, the first and last half a step from the ends.", "quantifier": "all meshes, directions and positive layer heights, exact arithmetic", "why_tests_cant": "infinitely many meshes", "anchors": ["slicers/slice_by_vector.go:SliceByVector"]}
{"id": "C24", "title": "When slicing panics", "statement": "SliceByVector returns an empty result for a nil/empty mesh; it panics for every non-empty mesh of zero extent along the direction (flat model) and when the only layer is empty; for positive extent and layer height with at least two layers, or a nonempty only layer, it returns normally.", "quantifier": "all meshes and settings, exact arithmetic", "why_tests_cant": "crash conditions over all inputs", "anchors": ["slicers/slice_by_vector.go:SliceByVector"]}
{"id": "C25", "title": "Only the outermost empty layers are dropped", "statement": "The returned layers are the computed layers in increasing order with at most the first and at most the last removed, and a layer is removed only if it has no paths.", "quantifier": "all layer lists", "why_tests_cant": "all inputs", "anchors": ["slicers/slice_by_vector.go:SliceByVector"]}
{"id": "C26", "title": "Mesh extent", "statement": "MinMaxZ returns bounds attained by vertices of the mesh and bounding every vertex's projection; it returns (0,0) for an empty mesh.", "quantifier": "all meshes with non-NaN projections, exact and float64 arithmetic", "why_tests_cant": "all meshes", "anchors": ["primitives/mesh.go:MinMaxZ", "primitives/triangle.go:MinMaxZ"]}
{"id": "C27", "title": "Plane-segment intersection", "statement": "IntersectSegment returns a point iff the end points have different signed distances to the plane that are not both positive and not both negative; the returned point is on the plane and on the segment, and it is the only such point.", "quantifier": "all planes and segments, exact arithmetic", "why_tests_cant": "infinitely many inputs", "anchors": ["primitives/plane.go:IntersectSegment"]}
{"id": "C28", "title": "Plane-triangle intersection", "statement": "Every segment returned by IntersectTriangle has end points within half a unit of the 8th decimal (per axis) of points that lie both on the plane and on the triangle's boundary, its two ends are not Equal, and it is oriented so that the triangle normal is on the documented side; a triangle whose vertices are not strictly separated by more than the tolerance gives nil.", "quantifier": "all planes and triangles, exact arithmetic", "why_tests_cant": "infinitely many inputs", "anchors": ["primitives/plane.go:IntersectTriangle"]}
{"id": "C29", "title": "Rounding to decimal places", "statement": "RoundPlaces(a,n) is a multiple of 10^-n within half a unit of the n-th decimal of a, it is odd in a, idempotent and monotone.", "quantifier": "all reals and 0<=n<=16, exact arithmetic, |a*10^n| < 2^63", "why_tests_cant": "all inputs", "anchors": ["primitives/utils.go:RoundPlaces", "primitives/utils.go:Round"]}
{"id": "C30", "title": "Tolerant point equality is not an equivalence", "statement": "Point.Equal is reflexive and symmetric on finite points (float64), false when a coordinate is NaN, but not transitive; two points with the same MapKey are always Equal (exact arithmetic) while Equal points can have different MapKeys.", "quantifier": "all points", "why_tests_cant": "all inputs", "anchors": ["primitives/point.go:Equal", "primitives/point.go:MapKey"]}
{"id": "C31", "title": "Mesh rotation is a rigid motion and is undone by the reverse sequence", "statement": "Mesh.Rotate by RotationAroundX/Z about any centre preserves all distances between mesh points and rotates normals with the points; rotating by Z(a) then X(b) is exactly undone by X(-b) then Z(-a), for every a and b and centre.", "quantifier": "all meshes, angles, centres; exact arithmetic", "why_tests_cant": "infinitely many inputs", "anchors": ["primitives/mesh.go:Rotate", "primitives/rotation_matrix.go"]}
{"id": "C32", "title": "JoinPaths3 conserves segments", "statement": "Each returned path is the concatenation, in travel direction, of some of the input paths whose junctions are Equal points; every input path occurs in exactly one returned path exactly once; nothing is reversed, lost or duplicated; the root-finding loop terminates.", "quantifier": "all lists of nonempty paths, any outcome of the sort, any arithmetic", "why_tests_cant": "the sort comparator is not a strict weak order, so the result of sorting is unspecified; tests see one outcome", "anchors": ["primitives/path.go:JoinPaths3", "primitives/path.go:tryJoin"]}
{"id": "C33", "title": "JoinPaths3 may leave joinable paths unjoined", "statement": "There are inputs (two contours touching in a vertex) for which two returned paths still have Equal end/start points; so 'as few paths as possible' is not guaranteed.", "quantifier": "existence (counterexample), for sorts that order equal keys in an admissible way", "why_tests_cant": "a specific adversarial order is needed", "anchors": ["primitives/path.go:JoinPaths3"]}
{"id": "C34", "title": "JoinPaths2 terminates and conserves segments for every map iteration order", "statement": "For every input of nonempty paths and every iteration order of Go maps in each round, JoinPaths2 terminates, and its result is a partition of the input paths into chains in which each input path is used exactly once, possibly reversed, junctions having equal rounded coordinates.", "quantifier": "all inputs, all map iteration orders, any arithmetic", "why_tests_cant": "map order is random", "anchors": ["primitives/path.go:JoinPaths2", "primitives/path.go:toslice"]}
{"id": "C35", "title": "MinimizeLines only removes vertices", "statement": "MinimizeLines never invents or moves vertices: for an open result the vertices form a subsequence of the input with the same first and last vertex; a path with at least one vertex keeps at least one.", "quantifier": "all paths, any arithmetic", "why_tests_cant": "all inputs", "anchors": ["primitives/path.go:MinimizeLines"]}
{"id": "C36", "title": "MinimizeLines can cut off spikes and corners", "statement": "Backtracking along a line counts as collinear, so a spike is removed together with the part of the contour it traces: there is a path whose result misses traced points by an arbitrary distance; and a closed two-segment path collapses to a single point.", "quantifier": "for every distance D", "why_tests_cant": "unbounded family", "anchors": ["primitives/path.go:MinimizeLines", "primitives/line.go:IsCollinear"]}
{"id": "C37", "title": "CutMesh keeps whole triangles on their side", "statement": "Every triangle with all vertices in front of the plane is in the first result unchanged, every triangle with all vertices behind is in the second result unchanged, and order among such triangles is kept; neither result contains any other uncut triangle.", "quantifier": "all meshes, planes, any arithmetic", "why_tests_cant": "all inputs", "anchors": ["helpers/cut_mesh.go:CutMesh", "primitives/plane.go:PointInFront"]}
{"id": "C38", "title": "CutMesh loses triangles that touch the plane in one vertex", "statement": "A triangle straddling the plane is dropped from both results exactly when IntersectTriangle gives nil for it; in particular every triangle with one vertex on the plane and the other two strictly behind it is dropped, so CutMesh does not conserve the surface.", "quantifier": "all meshes; all triangles touching a plane in one vertex from behind (exact arithmetic)", "why_tests_cant": "measure-zero configurations that tests with random models do not hit", "anchors": ["helpers/cut_mesh.go:CutMesh", "primitives/plane.go:IntersectTriangle"]}
{"id": "C39", "title": "Caps of the two halves match", "statement": "The closing triangles added to the upper part and to the lower part are pairwise the same triangle with opposite winding (and opposite normal), one pair per fan triangle of each joined section contour.", "quantifier": "all meshes and planes, any arithmetic for winding, exact arithmetic for normals", "why_tests_cant": "all inputs", "anchors": ["helpers/cut_mesh.go:CutMesh"]}
{"id": "C40", "title": "Splitting a triangle conserves its oriented area", "statement": "If the cut points lie on the two edges leaving the separated vertex, the three triangles made when CutMesh splits a triangle have oriented areas that sum to that of the original triangle and are each nonnegative multiples of it - provided the corner cut off is not too small: below the 1e-6 tolerance the two cut points are exchanged, one piece is turned over and the sum is wrong.", "quantifier": "all triangles and cut points on the edges, exact arithmetic", "why_tests_cant": "infinitely many inputs", "anchors": ["helpers/cut_mesh.go:splitOnThree"]}
{"id": "C41", "title": "Line simplification keeps the ends and stays within epsilon", "statement": "SimplifyLine terminates on every input of two or more points for epsilon >= 0; its result is a subsequence of the input with the same first and last point, and every dropped point is within epsilon of the infinite line through two consecutive kept points that surround it (not necessarily of the kept segment). One point gives that point twice, the empty list panics, and a negative epsilon never terminates.", "quantifier": "all point lists and epsilons >= 0, exact arithmetic (structure: any arithmetic)", "why_tests_cant": "all inputs; recursion depth unbounded", "anchors": ["helpers/simplify_line.go:SimplifyLine", "primitives/point.go:DistanceToLine"]}
{"id": "C42", "title": "Overhang colouring", "statement": "ColorizeTriangles returns one flag per triangle, set exactly when the angle between the triangle normal and the reversed direction is below 90-angle; FilterTrianglesByColor returns exactly the flagged triangles in order.", "quantifier": "all meshes with nonzero normals, exact arithmetic", "why_tests_cant": "infinitely many inputs", "anchors": ["helpers/colorize_triangles.go", "primitives/vector.go:Angle"]}
{"id": "C43", "title": "Angle of antiparallel vectors can come out as 0", "statement": "In exact arithmetic Angle is symmetric, within [0,180], and 180 for opposite vectors. In float64 the guard against |cos|>1 returns 0 for some exactly opposite vectors, whatever Acos does; consequently a triangle facing exactly along the direction can be flagged as an overhang.", "quantifier": "all nonzero vectors (exact half); existence (float half)", "why_tests_cant": "depends on rounding of particular values", "anchors": ["primitives/vector.go:Angle", "helpers/colorize_triangles.go"]}
{"id": "C44", "title": "Outline of a set of overhang triangles", "statement": "MakeUndoubledLinesFromTriangles returns exactly the edges (up to direction) that occur once among all triangle edges, DeleteInternalLines returns exactly the edges that occur an odd number of times.", "quantifier": "all triangle lists without NaN coordinates", "why_tests_cant": "all inputs", "anchors": ["helpers/supports_by_vector.go"]}
{"id": "C45", "title": "Fill planes are evenly spaced and cover the model (line fill)", "statement": "For a positive step the fill planes are orthogonal to the axis at consecutive integer multiples of the step; for line fill (and for the full fill of top and bottom layers) a plane is met within one step of every vertex of the mesh in direction X, provided some vertex is off the vertical axis through the origin.", "quantifier": "all meshes, positive steps, exact arithmetic", "why_tests_cant": "infinitely many inputs", "anchors": ["slicers/fill_layer.go:calcFillPlanesCommon", "slicers/fill_layer.go:CalcFillPlanesLines"]}
{"id": "C46", "title": "Square fill does not cover every model", "statement": "For diagonal directions the range is computed from two corners of the bounding box only, so for every number of steps there is a mesh with a vertex farther than that from all fill planes of one of the two directions.", "quantifier": "for every number of steps", "why_tests_cant": "unbounded family", "anchors": ["slicers/fill_layer.go:calcFillPlanesCommon", "slicers/fill_layer.go:CalcFillPlanesSquares"]}
{"id": "C47", "title": "FillLayers touches only Fill, and uses full fill exactly for top and bottom layers", "statement": "FillLayers changes nothing but the Fill of each layer; layer i is filled with the full planes iff i < BottomLayers or i >= n-TopLayers, else with the sparse planes, applied to InnerPs or, when absent, to Paths.", "quantifier": "all layer lists and settings, any arithmetic", "why_tests_cant": "all inputs", "anchors": ["slicers/fill_layer.go:FillLayers"]}
{"id": "C48", "title": "Ordering fill paths loses nothing", "statement": "If all end-point distances are below MaxFloat32, sortFillPathes returns each input path exactly once, possibly reversed, starting with the first, and each next path starts at an end point closest to the previous end. If instead no end is that near to the end of the first path (NaN or huge coordinates), the result is the first path repeated and all others are lost.", "quantifier": "all path lists, any arithmetic", "why_tests_cant": "all inputs", "anchors": ["slicers/fill_layer.go:sortFillPathes"]}
{"id": "C49", "title": "Fill segments lie on the fill plane and end on contours", "statement": "Every end point of a segment returned by intersectByPlane is on the plane and on a segment of the given contours; consecutive points are ordered along the cut.", "quantifier": "all contours and planes, exact arithmetic", "why_tests_cant": "infinitely many inputs", "anchors": ["slicers/fill_layer.go:intersectByPlane"]}
{"id": "C50", "title": "Number of walls", "statement": "In exact arithmetic PrepareLayers makes at most floor(WallThickness/LineWidth)-1 additional walls per contour; in float64 with the default settings (1.2, 0.4) it makes one fewer than that.", "quantifier": "all positive settings (exact half); the default settings (float half)", "why_tests_cant": "rounding of a quotient", "anchors": ["slicers/vip/utils.go:PrepareLayers", "slicers/vip/utils.go:offset"]}
{"id": "C51", "title": "Bed commands around sliced parts", "statement": "In SliceByPlanes part i>0 is printed with the bed at the rotation and tilt of cut plane i-1 as executed by the printer, part 0 untilted and unrotated, for every list of cut planes.", "quantifier": "all plane lists, any arithmetic", "why_tests_cant": "history of tilt state", "anchors": ["slicers/vip/slice_by_planes.go:SliceByPlanes", "slicers/vip/slice_by_planes.go:calcBedPlanes"]}
{"id": "C52", "title": "SliceByPlanes can leave the bed tilted", "statement": "When the last cut plane is tilted the generated program ends with the bed tilted: no return command is emitted; the bed ends untilted iff the last plane is not tilted.", "quantifier": "all plane lists", "why_tests_cant": "history of tilt state", "anchors": ["slicers/vip/slice_by_planes.go:SliceByPlanes"]}
{"id": "C53", "title": "Analyze suggests at most six planes, alternating tilted and horizontal", "statement": "Analyze terminates and returns at most 6 planes; they alternate: the 1st, 3rd, 5th tilted, the 2nd, 4th, 6th horizontal with normal AxisZ and rotation 0.", "quantifier": "all meshes and angles, any arithmetic (whenever it does not panic)", "why_tests_cant": "termination for all meshes", "anchors": ["slicers/vip/analyze.go:Analyze"]}
{"id": "C54", "title": "Rotating the mesh by the cut plane's heading only levels half of the planes", "statement": "When the bed is rotated by the heading computed with Angle(AxisX)+90 and tilted by 60 degrees, the cut-plane normal becomes vertical if and only if its y component is not negative; then the height of every point above the plane's point is its distance from the cut plane.", "quantifier": "all 60-degree plane normals, exact arithmetic", "why_tests_cant": "continuum of headings", "anchors": ["slicers/vip/slice_default.go:SliceDefault2", "slicers/slice_5axes.go:Slice5Axes", "slicers/vip/slice_bridge.go:SliceBridge"]}
{"id": "C55", "title": "Planes file round-trip", "statement": "A plane written by the analyzer and read back has the same tilt flag and its point and rotation equal to 3 decimals; the normal is rebuilt from tilt and rotation, agreeing in direction with the analyzer's normal iff the overhang normal's y component is nonnegative.", "quantifier": "all planes (text half: all finite values), exact arithmetic for directions", "why_tests_cant": "all values", "anchors": ["slicers/vip/analyze.go:ParsePlane", "slicers/vip/analyze.go:AnalyzedPlane.String", "slicers/vip/utils.go:readPlanes"]}
{"id": "C56", "title": "SliceRotation and SliceBridge panic when there is no overhang", "statement": "If no pair of consecutive layers fails the overhang test, SliceRotation and SliceBridge index past the end of the layer list and panic.", "quantifier": "all meshes/layer lists without failing pair", "why_tests_cant": "crash condition", "anchors": ["slicers/vip/slice_rotation.go:SliceRotation", "slicers/vip/slice_bridge.go:SliceBridge"]}
{"id": "C57", "title": "Template substitution does not depend on map order", "statement": "The header/footer text is the same for every iteration order of the settings map, each placeholder being replaced by its value everywhere and all other text kept, provided no value contains a brace and no brace pair of the template encloses another brace; without the second proviso the text can depend on the order.", "quantifier": "all template texts, all iteration orders, all values without braces", "why_tests_cant": "map order is random", "anchors": ["primitives/utils.go:PrepareDataFile", "slicers/settings.go:ToMap"]}
{"id": "C58", "title": "Middle of the failing angles", "statement": "For a nonempty sorted list of angles in [0,biggest) MiddleOnTheRing terminates without panic and returns an angle in [0,biggest): the whole part of the mean of the angles, those more than half a turn before the last one counted a turn further.", "quantifier": "all sorted lists, exact arithmetic", "why_tests_cant": "all inputs", "anchors": ["slicers/slice_5axes.go:MiddleOnTheRing"]}
{"id": "C59", "title": "Winding and holes", "statement": "IsWindingCW is decided by the sign of the contour's signed area: it is invariant under translation and under changing the start vertex, and reversing a contour of nonzero area exchanges IsHole and IsSolid.", "quantifier": "all contours, exact arithmetic", "why_tests_cant": "infinitely many inputs", "anchors": ["primitives/path.go:IsWindingCW", "primitives/path.go:IsHole"]}
{"id": "C60", "title": "Centroid of a horizontal contour", "statement": "For a closed contour in a horizontal plane with |area| >= 1e-6, FindCentroid returns the area centroid (area-weighted mean of the fan triangles' centroids for any apex), with the contour's height.", "quantifier": "all horizontal closed contours, exact arithmetic", "why_tests_cant": "infinitely many inputs", "anchors": ["primitives/path.go:FindCentroid"]}
{"id": "C61", "title": "When ToOutput panics", "statement": "ToOutput always terminates; it panics exactly when some path of some layer (outer, middle, inner or fill) has no points, and otherwise returns a text, whatever numbers (NaN, Inf) the settings and coordinates contain.", "quantifier": "all settings, all command lists", "why_tests_cant": "The absence of panics for every combination of empty groups, nil inner walls and degenerate paths cannot be enumerated.", "anchors": ["gcode/gcode.go:ToOutput", "gcode/cmds.go:pathesToGCode"]}
{"id": "C62", "title": "Fill follows the even-odd rule", "statement": "For closed contours none of whose vertices lies on the (vertical) fill plane, the plane crosses the contours an even number of times, and a position along the cut is covered by a returned fill segment if and only if an odd number of crossings lies before it.", "quantifier": "all sets of closed contours and all vertical planes in general position, whatever order sort.Slice gives to equal keys, exact arithmetic", "why_tests_cant": "infinitely many contours; nesting depth unbounded", "anchors": ["slicers/fill_layer.go:intersectByPlane"]}
{"id": "C63", "title": "Low densities give no fill for squares and triangles", "statement": "FillDensity/2 and FillDensity/3 are divisions of integers: with density 1 (or 0) for squares and up to 2 for triangles the step is infinite and no sparse fill plane is produced at all, for any model.", "quantifier": "all meshes, all positive finite line widths, float64", "why_tests_cant": "all meshes including NaN and infinite coordinates", "anchors": ["slicers/fill_layer.go:CalcFillPlanesSquares", "slicers/fill_layer.go:CalcFillPlanesTriangles"]}
{"id": "C64", "title": "Fill can run outside the contours when a vertex lies on the fill plane", "statement": "The even-odd rule fails without general position: there are two disjoint closed contours with a vertex on the fill plane each such that a returned fill segment runs through the gap between them, whatever sort.Slice does with equal keys.", "quantifier": "all legal orders of equal keys; existence of the contours", "why_tests_cant": "the order of equal keys is unspecified", "anchors": ["slicers/fill_layer.go:intersectByPlane"]}
{"id": "C65", "title": "A wall of a closed contour touches the contour at its first corner", "statement": "MakeOffset does not cut the first line of a closed contour at the second: its end stays at the first segment's end, moved sideways only. So the inner wall of a contour can reach the contour itself: for a square of side 10 offset by 0.4 it contains the point (0.4, 10) of the outline.", "quantifier": "all contours of at least three points (any arithmetic); existence of the witness (float64)", "why_tests_cant": "the corner is lost for every contour, a test would have to know the wanted shape", "anchors": ["slicers/vip/offset_path.go:MakeOffset"]}
{"id": "C66", "title": "Parts stand on the bed with the cut plane level", "statement": "For cut planes read from a planes file SliceByPlanes turns and tilts the part above the plane so that the height of each of its vertices is the vertex's distance from the cut plane, up to a constant for the part.", "quantifier": "all meshes, planes and rotation centres, exact arithmetic", "why_tests_cant": "continuum of rotations", "anchors": ["slicers/vip/slice_by_planes.go:SliceByPlanes", "slicers/vip/analyze.go:ParsePlane"]}
{"id": "C67", "title": "A model of one layer is not printed", "statement": "SliceDefault2 emits no printing command when there is at most one layer.", "quantifier": "all meshes and settings, any arithmetic", "why_tests_cant": "all models", "anchors": ["slicers/vip/slice_default.go:SliceDefault2"]}
{"id": "C68", "title": "The skirt keeps the contours", "statement": "SkirtPathes keeps every contour of at least two points, each after its skirt lines with the outermost first, drops shorter ones and changes nothing else of the layer; the skirt lines of a contour are offsets of one another, the first of the contour.", "quantifier": "all layers and counts, any arithmetic", "why_tests_cant": "all layers", "anchors": ["slicers/vip/utils.go:SkirtPathes", "slicers/vip/utils.go:offset"]}
{"id": "C69", "title": "Which planes files can be read", "statement": "Reading a planes file panics exactly if some line has less than five words (an empty line included); otherwise there is one plane per line.", "quantifier": "all files with lines shorter than 64 KiB", "why_tests_cant": "crash condition over all texts", "anchors": ["slicers/vip/utils.go:readPlanes", "slicers/vip/analyze.go:ParsePlane"]}
{"id": "C70", "title": "Models without an outside contour crash Slice", "statement": "Without cut planes Slice panics if there is no layer or if the first layer has no outside contour.", "quantifier": "all meshes and settings, any arithmetic", "why_tests_cant": "crash condition", "anchors": ["slicers/vip/slice_main.go:Slice"]}
{"id": "C71", "title": "Bed at the end of SliceRotation, SliceBridge and SliceDefault2", "statement": "The programs of SliceRotation and SliceBridge leave the bed unrotated and untilted; SliceDefault2 prints its parts alternately with the bed level and tilted, beginning level.", "quantifier": "all meshes and settings; executed by the printer", "why_tests_cant": "history of tilt state", "anchors": ["slicers/vip/slice_rotation.go:SliceRotation", "slicers/vip/slice_bridge.go:SliceBridge", "slicers/vip/slice_default.go:SliceDefault2"]}
{"id": "C72", "title": "SliceByProfile: one part per segment of the centre line", "statement": "SliceByProfile emits for every segment of the simplified centre line one command with both bed angles and then the layers of one part, and nothing else. In the text these are the G62 instructions, one for each segment in order: X is the angle between the segment and the vertical, Z is 90 more than the angle between its horizontal part and the X axis.", "quantifier": "all meshes and settings, any arithmetic", "why_tests_cant": "all models", "anchors": ["slicers/slice_by_profile.go:SliceByProfile", "gcode/cmds.go:RotateXZ.ToGCode"]}
{"id": "C73", "title": "Turning a mesh there and back", "statement": "The rotations by which SliceDefault2 and Slice5Axes turn a mesh for a tilted part and back are inverse to each other.", "quantifier": "all meshes and headings, exact arithmetic", "why_tests_cant": "continuum of angles", "anchors": ["slicers/vip/slice_default.go:SliceDefault2", "slicers/slice_5axes.go:Slice5Axes"]}
{"id": "C74", "title": "Horizontal ceilings give a plane without direction", "statement": "For an overhang whose normal is vertical Analyze produces a tilted plane with a zero normal and a rotation that is not a number; it is written as RNaN to the planes file.", "quantifier": "all finite vertical normals, float64, any sine and cosine that are finite for finite angles", "why_tests_cant": "the degenerate direction is common in practice but not in tests", "anchors": ["slicers/vip/analyze.go:Analyze"]}
{"id": "C75", "title": "The output file is header, program and footer", "statement": "For every G-code and every iteration order of the settings map the output file is the filled header, the text of the G-code and the filled footer, and every line of it can be read. Whatever state the printer is in before, after the header it is in absolute mode with the fan off, tool 0, register 0, the configured temperatures and speed and an unmoved bed; the program then runs exactly as in absolute mode; the footer switches both heaters off, retracts 6 mm and returns to absolute mode. The header states the number of layers that the program contains, the date, layer height, walls and fill density.", "quantifier": "all G-codes, settings, map orders and printer states", "why_tests_cant": "composition of text and machine state over all programs", "anchors": ["cmd/goosli/goosli.go:CommandsWithTemplates", "data/header_template.txt", "data/footer_template.txt", "slicers/settings.go:ToMap"]}
{"id": "C76", "title": "The fan still runs after the end of the file", "statement": "The footer does not switch the fan off (its M107 is commented out): after a file of two layers or more, or of one layer without fan_off_layer1, the fan is on although the heaters are off.", "quantifier": "all G-codes with layers, settings, map orders and printer states", "why_tests_cant": "needs the fan state over the whole program", "anchors": ["data/footer_template.txt", "gcode/cmds.go:ToGCode"]}
{"id": "C77", "title": "The flags reach the printer", "statement": "Whatever the slicing type, if the command writes a file then the file heats to the temperatures of the flags; at every print move the fan is as fan_off_layer1 says; with retraction on every print move runs at retraction_speed mm/min; with retraction off and a slicing type other than vip print moves run at 60 times the speed flag of first layer, walls or fill.", "quantifier": "all models, flags, slicing types, map orders, printer states", "why_tests_cant": "end-to-end over all models and flags", "anchors": ["cmd/goosli/goosli.go:main", "cmd/goosli/goosli.go:settings"]}
{"id": "C78", "title": "The three-axis mode never moves the bed", "statement": "A file written with slicing type 3axes contains no G62 and leaves the position of every tool other than the extruder unchanged.", "quantifier": "all models, flags, map orders, printer states", "why_tests_cant": "all models", "anchors": ["cmd/goosli/goosli.go:main", "slicers/slice_by_vector.go:SliceByVectorToGcode"]}
{"id": "C79", "title": "JoinPaths3 closes contours", "statement": "If every path ends where exactly one of the paths starts and no two start at the same place, and the coordinates of different end points differ by at least the tolerance in every axis where they differ at all, then JoinPaths3 returns only closed paths, which together are the given ones, whatever the order of the paths and however the sort treats ties.", "quantifier": "all lists of paths of two points or more, all sort results allowed by sort.Slice, any arithmetic with ordered numbers (float64 and exact)", "why_tests_cant": "all inputs and all sort results", "anchors": ["primitives/path.go:JoinPaths3", "primitives/path.go:tryJoin", "primitives/path.go:IsClosed"]}
{"id": "C80", "title": "Plane sections of closed surfaces are closed", "statement": "For a watertight mesh (every side of a triangle used exactly once in each direction) and a plane through none of its vertices whose crossing points are not nearly equal, every triangle section runs from the side that goes up through the plane to the side that goes down, so that the sections end exactly where others start and JoinPaths3 joins them into closed contours only. The sides of these contours, with their direction, are the sections of the triangles, one for one, and each has the front of its triangle on the left: the material is on the right of every contour.", "quantifier": "all watertight meshes and planes in general position, exact arithmetic", "why_tests_cant": "all meshes and planes", "anchors": ["primitives/plane.go:IntersectTriangle", "primitives/plane.go:IntersectSegment", "primitives/path.go:JoinPaths3", "slicers/slice_by_vector.go:slicingWorker"]}
{"id": "C81", "title": "Slicing a closed model gives closed contours", "statement": "SliceByVector of a watertight mesh whose vertices miss the planes of the layers (general position, supports off) returns layers all of whose contours are closed, also after MinimizeLines.", "quantifier": "all watertight meshes, directions, layer heights, schedules, exact arithmetic", "why_tests_cant": "all meshes", "anchors": ["slicers/slice_by_vector.go:SliceByVector", "primitives/path.go:JoinPaths3AndMinimize", "primitives/path.go:MinimizeLines"]}
{"id": "C82", "title": "goosli_cutter writes the two parts", "statement": "For a readable model and enough room on the disk goosli_cutter ends without an error and its two files hold the upper and the lower part given by CutMesh, vertices rounded to single precision; for a binary input every triangle wholly on one side of the plane is in the file of that side, in order and with the very same coordinates. A file that cannot be read stops the program. On a disk that becomes full before the last byte of the first file it still ends without an error although that file is too short. It stops with an error exactly if one of the files does not get all its full blocks of 4096 bytes (those before the last one).", "quantifier": "all files, planes, sort results and disk sizes, float64", "why_tests_cant": "all files, all disk sizes", "anchors": ["cmd/goosli_cutter/goosli_cutter.go:main", "primitives/stl.go:LoadSTL", "primitives/stl.go:SaveSTL", "helpers/cut_mesh.go:CutMesh"]}
{"id": "C83", "title": "goosli_simplifier leaves small models alone", "statement": "A binary STL file whose triangle count does not exceed the wanted number comes out of goosli_simplifier with the same number of bytes and, when loaded, exactly the same triangles. For a larger model the simplification library is called with the fraction wanted/actual and the vertices it returns are what the file holds, rounded to single precision. It stops with an error exactly if the file does not get all its full blocks of 4096 bytes (those before the last one).", "quantifier": "all binary files, all wanted numbers, all results of the library, float64", "why_tests_cant": "all files", "anchors": ["cmd/goosli_simplifier/goosli_simplifier.go:main", "helpers/simplify_mesh.go:SimplifyMesh"]}
{"id": "C84", "title": "goosli_colorizer: one byte per triangle", "statement": "The output of goosli_colorizer has one byte, 0 or 1, for every triangle of the file, 1 exactly for the triangles of FilterTrianglesByColor. The byte of a triangle of a binary file depends only on its nine vertex coordinates: not on the stored normal, the header, the attribute words or any other triangle.", "quantifier": "all files, angles and directions, float64 with any math.Acos", "why_tests_cant": "all pairs of files that agree on one triangle", "anchors": ["cmd/goosli_colorizer/goosli_colorizer.go:main", "helpers/colorize_triangles.go:ColorizeTriangles"]}
{"id": "C85", "title": "What goosli_analyzer writes, goosli reads", "statement": "The file written by goosli_analyzer is always readable by the planes reader of goosli: at most six planes, tilted and level in turn, beginning with a tilted one, normals as implied by tilt and angle. Slicing by them leaves the bed tilted exactly when their number is odd.", "quantifier": "all models, origins and angles, float64", "why_tests_cant": "all models; text formatting of all float64 numbers", "anchors": ["cmd/goosli_analyzer/goosli_analyzer.go:main", "slicers/vip/analyze.go:Analyze", "slicers/vip/utils.go:readPlanes", "slicers/vip/slice_by_planes.go:SliceByPlanes"]}
{"id": "C86", "title": "Analyze crashes on some models", "statement": "Analyze looks up the index of an overhanging triangle of the part above its first plane in the whole model. Whenever that part has an overhanging triangle at an index beyond the number of triangles of the model, Analyze panics with an index out of range; there is a model of 16 triangles for which this happens in float64, so the claim that Analyze always returns planes is false.", "quantifier": "all models, angles and legal environments, any arithmetic with ordered numbers; witness in float64", "why_tests_cant": "all models", "anchors": ["slicers/vip/analyze.go:Analyze", "helpers/cut_mesh.go:CutMesh", "helpers/colorize_triangles.go:ColorizeTriangles"]}
{"id": "C87", "title": "The first plane of Analyze", "statement": "Analyze suggests no plane exactly if no triangle leans over further than the angle allows, triangles lying on the bed apart. Otherwise its first plane is tilted and passes through a lowest vertex of a lowest overhanging triangle: no vertex of any overhanging triangle is below it. In exact arithmetic its normal leans by 60 degrees to the side to which that triangle faces.", "quantifier": "all models and angles for which Analyze returns, any arithmetic with ordered numbers; geometry in exact arithmetic", "why_tests_cant": "all models", "anchors": ["slicers/vip/analyze.go:Analyze"]}
{"id": "C88", "title": "Direction of the parts of SliceByProfile", "statement": "Turned about Z and then about X by the angles SliceByProfile computes for a segment of the centre line that is not vertical, the segment stands upright if and only if it does not lean towards negative Y; so the claim that every part is sliced along its segment is false.", "quantifier": "all segments with a horizontal part, exact arithmetic", "why_tests_cant": "all directions; equality of real trigonometric expressions", "anchors": ["slicers/slice_by_profile.go:SliceByProfile", "primitives/vector.go:Angle", "primitives/rotation_matrix.go:RotationAroundZ", "primitives/rotation_matrix.go:RotationAroundX"]}
{"id": "C89", "title": "SliceByProfile cannot print upright models", "statement": "If the centres of all layers of a model have exactly the same X and Y coordinates (a vertical prism), then in float64 SliceByProfile never returns a program with a layer, and it crashes when the centre line is simplified to one segment: the angle of a vertical segment is NaN.", "quantifier": "all models, settings, legal environments, recursion depths; float64 with any math.Sin, Cos and Acos that map NaN to NaN", "why_tests_cant": "all models with aligned centres", "anchors": ["slicers/slice_by_profile.go:SliceByProfile", "slicers/slice_by_vector.go:SliceByVector", "primitives/vector.go:Angle"]}
{"id": "C90", "title": "Where the cut at an overhang is and how it leans", "statement": "A plane that CalculateFails gives passes through a point of a contour of the layer below and leans by 60 degrees. If the centre of the new contour is inside a contour below, the plane leans in the direction in which that point is seen. If not, and always at a bridge, it leans towards the mirror image with y <= 0 of the direction in which the model grows. The bed turned by the heading of the plane and tilted makes the plane horizontal exactly if it leans towards y >= 0.", "quantifier": "all pairs of layers; exact arithmetic", "why_tests_cant": "all pairs of layers and all directions", "anchors": ["slicers/slice_5axes.go:CalculateFails", "slicers/slice_5axes.go:findPrevPath", "slicers/vip/slice_bridge.go:failExistBridge", "slicers/slice_5axes.go:Slice5Axes"]}
{"id": "C91", "title": "Print moves stay within the paths of their layer", "statement": "When a printer executes the text written by ToOutput, then before and after every print move the head is, on each axis, where some vertex of one and the same path is written, and that path belongs to the layer that the last ';LAYER:k' line names and to the section that the last section comment names, whatever position the head had before.", "quantifier": "all command lists, settings and starting positions; any arithmetic whose text meets four facts (exact and float64 do)", "why_tests_cant": "all programs; every intermediate state of an execution", "anchors": ["gcode/gcode.go:ToOutput", "gcode/cmds.go:LayersMoving.ToGCode"]}
{"id": "C92", "title": "Three-axis printing stays at the height of the layer and within the model", "statement": "In three-axis mode without supports, every print move of layer k of the written file runs at the height of the k-th cut (of the (k+1)-th for all k if the lowest cut was empty) and, in X and Y, within the bounds of the model moved by the origin flags, up to the three written decimals plus 5e-9.", "quantifier": "all meshes of positive height, flags, legal environments; exact arithmetic", "why_tests_cant": "all models and every move of the file", "anchors": ["cmd/goosli/goosli.go:main", "slicers/slice_by_vector.go:SliceByVectorToGcode", "slicers/slice_by_vector.go:SliceByVector", "slicers/fill_layer.go:FillLayers", "gcode/gcode.go:ToOutput", "primitives/mesh.go:Shift"]}
{"id": "C93", "title": "When three-axis mode succeeds", "statement": "In three-axis mode the command writes a file exactly if slicing along Z succeeds; in exact arithmetic, without supports and for a model of positive height, that is exactly if the model is taller than a layer or the plane half way up meets it.", "quantifier": "all meshes, flags, legal environments; any arithmetic (first half), exact (second half)", "why_tests_cant": "absence of crashes for all models", "anchors": ["cmd/goosli/goosli.go:main", "slicers/slice_by_vector.go:SliceByVectorToGcode", "gcode/gcode.go:ToOutput"]}
{"id": "C94", "title": "Filament per length for the flags", "statement": "In every mode the E words of the print moves of the written file are 4*line_width*layer_height*L/(pi*bar_diameter^2), rounded once to three decimals, L being the length printed since the last reset, for layers that contain the vertices the print moves go to.", "quantifier": "all inputs on which the command writes a file; exact arithmetic", "why_tests_cant": "all models; exact sums", "anchors": ["cmd/goosli/goosli.go:settings", "gcode/cmds.go:LayersMoving.ToGCode"]}
{"id": "C95", "title": "The flow flag changes nothing", "statement": "The file written with --flow v is the same for every v, in every mode; so is failure.", "quantifier": "all inputs, flags and values of flow; any arithmetic", "why_tests_cant": "all inputs and values", "anchors": ["cmd/goosli/goosli.go:settings", "gcode/gcode.go:GcodeSettings"]}
{"id": "C96", "title": "Fill flags in three-axis mode", "statement": "In three-axis mode every layer of the file consists of contours and fill only, and its fill paths are, one for one, the cuts of its contours by vertical planes: planes one line_width apart on the bottom_layers lowest and top_layers highest layers, and on the others the family or families of planes that filling_type names, 100/fill_density line widths apart for lines (with half and a third of the density, rounded down, for each family of squares and triangles).", "quantifier": "all inputs on which the command writes a file; any arithmetic with transitive irreflexive <", "why_tests_cant": "all models and flag values", "anchors": ["cmd/goosli/goosli.go:settings", "slicers/fill_layer.go:FillLayers", "slicers/fill_layer.go:CalcFillPlanes"]}
{"id": "C97", "title": "The modes 5axes and 5axes_by_profile print contours only", "statement": "In the modes 5axes and 5axes_by_profile no print move of the written file is in a fill, middle-wall or inner-wall section, whatever fill_density, wall_thickness, top_layers and bottom_layers say.", "quantifier": "all inputs on which the command writes a file; any arithmetic; layers found beyond the length of a slice are layers of SliceByVector", "why_tests_cant": "all models and flags", "anchors": ["slicers/slice_5axes.go:Slice5Axes", "slicers/slice_by_profile.go:SliceByProfile", "gcode/cmds.go:LayersMoving.ToGCode"]}
{"id": "C98", "title": "What counts as an overhang", "statement": "If CalculateFails gives a plane for two horizontal layers, then a new contour has its centre outside all contours below, or it is farther than tan 40 degrees times the layer height from the contour below in one of 36 directions. Conversely, if a contour that is not a hole has its centre inside a contour below that goes all round it and is farther than that from it in one of the 36 directions, CalculateFails gives a plane, whatever the other contours are. Going inwards counts like going outwards: every square that shrinks by more than tan 40 degrees times the layer height is cut although nothing hangs over, and every square that grows by more than that is cut.", "quantifier": "all pairs of horizontal layers; all squares of half width at least 1 and layer heights below 1; exact arithmetic", "why_tests_cant": "all pairs of layers", "anchors": ["slicers/slice_5axes.go:CalculateFails", "slicers/slice_5axes.go:findPrevPath"]}
{"id": "C99", "title": "Upright walls are not cut", "statement": "For two layers with the same closed contours one above the other, CalculateFails gives no plane if there is one contour, or if each contour is the first one below that has its centre inside. For nested upright contours (a rod in a tube) it does give a plane.", "quantifier": "all pairs of layers with equal closed horizontal contours; exact arithmetic", "why_tests_cant": "all contours", "anchors": ["slicers/slice_5axes.go:CalculateFails", "slicers/slice_5axes.go:findPrevPath"]}
{"id": "C100", "title": "The parts of a cut model are closed again", "statement": "CutMesh divides every triangle of a watertight model that the plane crosses, so that the pieces on each side have the section as their only open sides. If the contours of the section run clockwise seen against the normal from their first points and lose no point when straightened, the lids close both parts. A box whose walls are two triangles each is not closed again: the straightened lid has none of the points where the diagonals of the walls are cut, so 14 sides of each part stay open.", "quantifier": "all watertight models with normal-sized triangles and all planes through no corner; exact arithmetic; float64 witness for the box", "why_tests_cant": "all models and planes", "anchors": ["helpers/cut_mesh.go:CutMesh", "helpers/cut_mesh.go:splitOnThree", "primitives/path.go:JoinPaths3AndMinimize"]}
{"id": "C101", "title": "A hole in the section of a cut", "statement": "CutMesh closes the contour of a hole with a lid like an outline, in the same direction as the material around. The only sides left over in the parts are the sides of the holes, each twice: the parts of a tube get a lid over the hole.", "quantifier": "all watertight models whose contours split in clockwise outlines and anticlockwise holes; exact arithmetic; float64 witness", "why_tests_cant": "all models and planes", "anchors": ["helpers/cut_mesh.go:CutMesh"]}
{"id": "C102", "title": "Dividing one triangle", "statement": "A triangle with one corner alone on its side of the plane is cut in the corner piece and two pieces of the rest, turned like the triangle, with the points where the plane crosses the two sides (rounded to 8 places). With sides longer than about 100 the corner piece can come out face down.", "quantifier": "all triangles with sides up to 100 cut not too close to a corner, all planes; exact arithmetic; float64 witness for a large triangle", "why_tests_cant": "all triangles and planes", "anchors": ["helpers/cut_mesh.go:CutMesh", "helpers/cut_mesh.go:splitOnThree"]}
{"id": "C103", "title": "Every point of a wall is at the line width from some side", "statement": "Every point of the path that MakeOffset returns for a horizontal contour is in the layer and exactly at the given distance, on the right, from the line through some side of the contour (on the left for the reversed direction that the skirt uses). This says nothing about the other sides: a strip thinner than the line width gets a wall outside of the strip on both sides.", "quantifier": "all horizontal contours without repeated points, all distances; exact arithmetic; float64 witness for the strip", "why_tests_cant": "all contours", "anchors": ["slicers/vip/offset_path.go:MakeOffset", "primitives/line.go:IntersectLine2"]}
{"id": "C104", "title": "The wall of a well-shaped contour", "statement": "For a closed horizontal contour with blunt corners whose wall has no reversed side, MakeOffset returns the closed path of the wall corners (each at the given distance from both neighbouring sides), except that at the second point of the contour the wall goes to the end of the first side moved sideways; the path is then straightened.", "quantifier": "all closed horizontal contours with blunt corners, all distances; exact arithmetic", "why_tests_cant": "all contours", "anchors": ["slicers/vip/offset_path.go:MakeOffset", "primitives/line.go:IntersectLine2"]}
{"id": "C105", "title": "Where the supports are", "statement": "With supports switched on, every layer is made of the sections of its plane with the model and with walls. There is a wall below every side of the (lowered) overhanging triangles that belongs to one of them only, as two triangles that together are exactly the region between that side and the height of the lowest point of the model. A triangle of a wall is left out if and only if some triangle of the model is found to meet it; nothing else is added.", "quantifier": "all models, directions, angles, offsets; all orders of sorting and of the workers; exact arithmetic", "why_tests_cant": "all models and directions", "anchors": ["slicers/slice_by_vector.go:SliceByVector", "helpers/supports_by_vector.go:MakeUndoubledLinesFromTriangles", "helpers/supports_by_vector.go:MakeSupportLines", "helpers/supports_by_vector.go:IntersectTriangles", "primitives/plane.go:ProectionPointToPlane"]}
{"id": "C106", "title": "Upright sides remove supports at any distance", "statement": "No triangle of a support wall is printed that reaches across the plane of an upright side of the model parallel to the x or y axis, wherever in that plane the side is. So it is not true that a wall is only left out where it would meet the model: for every distance there is a model where adding a triangle farther away than that removes a whole wall.", "quantifier": "all models, all distances; exact arithmetic; float64 witness", "why_tests_cant": "all distances", "anchors": ["primitives/triangle.go:PointBelongs", "primitives/triangle.go:IntersectTriangle", "helpers/supports_by_vector.go:IntersectTriangles", "slicers/slice_by_vector.go:SliceByVector"]}
{"id": "C107", "title": "Support contours are not closed", "statement": "The two triangles of a support wall are cut in opposite directions: in every layer between the bed and the side above, both sections end at the same point of the diagonal. So where nothing else of the layer passes through that point, the layer has two contours that end there and are not closed.", "quantifier": "all models, directions, layers; all orders of joining; exact arithmetic", "why_tests_cant": "all models and layers", "anchors": ["slicers/slice_by_vector.go:SliceByVector", "primitives/path.go:JoinPaths3", "primitives/path.go:IsClosed"]}
{"id": "C108", "title": "When two triangles are found to meet", "statement": "Triangle.IntersectTriangle, which decides what is left out of the supports, reports a section with a triangle that is not upright if and only if the segment, in which its plane cuts the other triangle, passes over a point of it. This holds if the ends of the segment are on the plane within the tolerance of 1e-6 (they are, if the components of the normal add up to less than 200) and nothing is closer to a side than the tolerance. So printed walls do not meet such faces. For larger faces it is not true: there is a model with a wall that goes through the inside of a slanted face and is printed.", "quantifier": "all triangles, models and settings; exact arithmetic", "why_tests_cant": "all positions of two triangles", "anchors": ["primitives/triangle.go:IntersectTriangle", "primitives/triangle.go:PointBelongs", "primitives/line.go:IntersectLine", "primitives/point.go:Orientation", "helpers/supports_by_vector.go:IntersectTriangles"]}
{"id": "C109", "title": "Whether a point is inside a contour", "statement": "Point.Inside, by which the contour under a contour is found, answers by the even-odd rule: in an ordinary position it is true if and only if a ray from the point, seen from above, crosses the contour an odd number of times, and the direction of the ray does not matter. Ordinary means: the contour is level, closed and has four points or more, the point is not on it nor on the line of its first side, no corner is straight across from the point, and, if the point is at another height, the contour is not too near behind it. So the contour found below a point encloses it, and where none is found, none but holes does. In each of the other positions the answer can be wrong: a point of a trapezium across from a corner, a point a layer above a square and near its first side, and every point on the line of the first side are called outside.", "quantifier": "all points and all contours, of any shape and number of corners; exact arithmetic", "why_tests_cant": "all polygons and all rays", "anchors": ["primitives/point.go:Inside", "primitives/plane.go:IntersectSegment", "primitives/vector.go:ProjectOnPlane", "slicers/slice_5axes.go:findPrevPath"]}
{"id": "C110", "title": "The fill is inside the contours", "statement": "A fill line consists of the points of its plane that are inside the contours: for level contours that return to their first point, of which none has a corner on the plane, a point of the plane that is not on a contour is on a fill segment if and only if a ray from it, in any direction that meets no corner, crosses the contours an odd number of times, so that holes stay empty. Hence every path FillLayers adds to a layer is a straight segment all of whose points, other than points of the contours themselves, are inside the contours that are filled.", "quantifier": "all sets of closed contours, all vertical planes, all points and rays, all layers; exact arithmetic", "why_tests_cant": "all polygons with holes and all planes", "anchors": ["slicers/fill_layer.go:FillLayers", "slicers/fill_layer.go:intersectByPlane"]}
{"id": "C111", "title": "Layers are sections of the solid, and the fill is inside it", "statement": "When a watertight model is sliced along the z axis without supports, a point at the height of a layer is inside the contours of that layer (even-odd) if and only if it is inside the model, that is, if a level ray from it leaves through the triangles of the model an odd number of times. Excepted are points within 5e-9 of the surface, where the rounding of the contours decides, and points between three contour corners that are nearly in line, of which the simplification may drop one. Consequently, when the contours are filled as they are, every other point of every fill line is inside the model.", "quantifier": "all watertight meshes whose layer planes pass through no vertex and round no two crossings together, all settings without supports, all points and all rays that pass no edge; exact arithmetic", "why_tests_cant": "all solids, layers and points; tests compare a few contours", "anchors": ["slicers/slice_by_vector.go:SliceByVector", "primitives/plane.go:IntersectTriangle", "primitives/path.go:JoinPaths3", "primitives/path.go:MinimizeLines", "slicers/fill_layer.go:FillLayers"]}
{"id": "C112", "title": "A three-axis file prints the sections of the model", "statement": "For a watertight model printed with --slicing_type 3axes without supports, the program in the file visits the vertices of a list of layers in order and prints nothing else, and layer k is the section of the moved model at cut k (k + 1 if the lowest cut was empty): its contours run through the places where sides of triangles cross that height, rounded to 8 places; a point at that height is inside the contours if and only if it is inside the model; and, seen from above, it is on a fill line if and only if it is inside the model and on one of the fill planes of the flags, the dense ones on the bottom and top layers and the pattern elsewhere. Excepted are points within 5e-9 of the surface and points between three contour corners nearly in line.", "quantifier": "all watertight models in general position with coordinates up to 1e37, all flags of three-axis mode without supports, all points; exact arithmetic", "why_tests_cant": "all solids, flags and points; ties the text of the file to the solid", "anchors": ["cmd/goosli/goosli.go:main", "slicers/slice_by_vector.go:SliceByVectorToGcode", "slicers/fill_layer.go:FillLayers", "primitives/path.go:JoinPaths3AndMinimize", "gcode/gcode.go:ToOutput"]}
{"id": "C113", "title": "With Go's own floats, a three-axis file prints each layer at its height and within the model", "statement": "In float64 and with --slicing_type 3axes and no supports: every vertex of every contour of a layer is within 5.2e-9 mm, on each axis, of a point of a side of a triangle of the moved model and of one height, which differs from the nominal height of the layer (bottom + (k + 1/2) of the n-th part of the height) by at most 2.5e-11 mm per layer; the number n of layers is the height divided by the layer height, rounded up, up to 1e-6; and every print move of the file runs at the nominal height of the layer under which it stands and within the bounds of the moved model in x and y, up to the written decimals (5e-4), 6e-9 and the drift of 2.5e-11 mm per layer.", "quantifier": "all models with finite coordinates up to 10000 mm (of any shape, closed or not), all layer heights from 1e-4 mm, all positive line widths, all densities 0..100, all outcomes of unspecified Go operations; float64", "why_tests_cant": "errors of rounding accumulate over all layers and depend on all coordinates; no finite set of models bounds them", "anchors": ["cmd/goosli/goosli.go:main", "slicers/slice_by_vector.go:SliceByVector", "slicers/fill_layer.go:FillLayers", "primitives/plane.go:IntersectTriangle", "primitives/plane.go:IntersectSegment", "gcode/gcode.go:ToOutput"]}
{"id": "C114", "title": "Printed part by part, nothing already printed stands above the head", "statement": "With --slicing_type vip, a planes file and no supports, the model is cut into parts, each part lies on its own side of its cut planes up to 2e-6 mm plus 1e-8 mm per plane, and no part leaves a half-space that holds the model by more than 1e-8 mm per plane. Every print move of the file belongs to one part: the bed then stands at the rotation and tilt of that part's plane, the head is at a height between the lowest and the highest point of the part as it lies on the turned bed (up to the written decimals), and no point of a part printed before is higher than the head by more than 4e-6 mm plus 1e-8 mm per plane plus the written decimals.", "quantifier": "all models with coordinates up to 1e300, all plane files that can be read, all settings with a positive layer height, all outcomes of unspecified Go operations; exact arithmetic", "why_tests_cant": "a relation between all parts and all later moves of the head, for every arrangement of cut planes and every mesh", "anchors": ["cmd/goosli/goosli.go:main", "slicers/vip/slice_main.go:Slice", "slicers/vip/slice_by_planes.go:SliceByPlanes", "slicers/vip/utils.go:readPlanes", "slicers/vip/utils.go:PrepareLayers", "slicers/vip/utils.go:SkirtPathes", "slicers/vip/offset_path.go:MakeOffset", "helpers/cut_mesh.go:CutMesh"]}
{"id": "C115", "title": "When printing by planes succeeds", "statement": "With --slicing_type vip and a planes file that can be read the command writes a file if and only if every part, turned as on its bed, can be sliced: cutting, walls, skirt, fill and output never fail. In exact arithmetic it succeeds whenever every non-empty part is taller on its bed than one layer, and it fails whenever some non-empty part lies flat on its bed.", "quantifier": "all models, plane files and settings, any arithmetic; the two conditions on heights in exact arithmetic with coordinates up to 1e300", "why_tests_cant": "absence of panics in all later stages for every mesh, and an equivalence", "anchors": ["cmd/goosli/goosli.go:main", "slicers/vip/slice_by_planes.go:SliceByPlanes", "slicers/vip/utils.go:PrepareLayers", "slicers/slice_by_vector.go:SliceByVector", "helpers/cut_mesh.go:CutMesh", "gcode/gcode.go:ToOutput"]}
{"id": "C116", "title": "Each slicing type reads only its own flags", "statement": "The written program depends on no flag that the chosen slicing type does not use: the rotation centre and the skirt matter only with --slicing_type vip and a planes file, epsilon only with 5axes_by_profile, the fill flags only with 3axes and vip, the support angle, normal and offset only with supports on, and the flow never. Two calls that agree on the flags in use both succeed or both fail, and write the same program; if they also agree on what the header and footer templates may show, they write the same file.", "quantifier": "all pairs of flag values, all models, plane files and profiles, all slicing types, any arithmetic", "why_tests_cant": "non-interference: a statement about all pairs of runs", "anchors": ["cmd/goosli/goosli.go:main", "slicers/settings.go:Settings", "slicers/slice_by_vector.go:SliceByVector", "slicers/fill_layer.go:CalcFillPlanes", "slicers/vip/slice_by_planes.go:SliceByPlanes", "slicers/slice_by_profile.go:SliceByProfile"]}
{"id": "C117", "title": "Rotation mode prints inclined layers with the bed tilted", "statement": "With --slicing_type vip and no planes file, a round model that widens is printed level up to the overhang and, after the bed is tilted, in layers that are not level for the head: every vertex of every contour of such a layer lies in one plane inclined by 60 degrees about the X axis (up to 1e-8 mm), so two vertices at distance d along Y differ in height by sqrt 3 times d. The level sections of the model are turned with the model instead of the turned model being cut into level sections.", "quantifier": "all models with coordinates up to 1e300, all settings without supports and with a positive layer height, all layers found before the tilt, all outcomes of unspecified Go operations; exact arithmetic; a witness in float64", "why_tests_cant": "needs the geometry of all layers of all overhanging round models, the test would have to know the printer", "anchors": ["slicers/vip/slice_main.go:Slice", "slicers/vip/slice_rotation.go:SliceRotation", "slicers/slice_by_vector.go:SliceByVector", "primitives/mesh.go:Rotate", "primitives/vector.go:Rotate"]}
{"id": "C118", "title": "The slicers of vip contradict each other on the direction of the tilt", "statement": "With --slicing_type vip the bed is tilted by the same command with and without a planes file, but the position of the model that is sliced is turned the other way. Without a file the bed is rotated to the heading of the overhang plane (the angle of its normal to the X axis plus 90); for the same plane in a planes file it is rotated to exactly the opposite side. Both positions make the plane level; at the rotation of one mode the tilt assumed by the other puts it at 120 degrees. At equal bed angles the height differences the two modes assume for two points of the model add up to their height difference in the model. So on one printer at most one of the two modes can be right.", "quantifier": "all inclined planes whose normal does not point to negative y (where both turn the model as they intend), all rotations of the bed, all rotation centres, all points; the commands for all runs in any arithmetic, the geometry in exact arithmetic", "why_tests_cant": "a comparison of two modes for all planes, with nothing in one run to compare against", "anchors": ["slicers/vip/slice_by_planes.go:SliceByPlanes", "slicers/vip/slice_default.go:SliceDefault2", "slicers/vip/slice_bridge.go:SliceBridge", "slicers/vip/utils.go:readPlanes", "primitives/mesh.go:Rotate", "gcode/cmds.go:InclineX"]}
{"id": "C119", "title": "The fill of a print by planes does not follow the parts when the bed is turned", "statement": "With --slicing_type vip, a planes file and line filling, the fill lines are placed once, for the model as it was given. The parts are turned about the rotation centre before they are sliced. So every point of the fill of every part has an X of less than sqrt 2 times the largest absolute X or Y of the model, plus the distance of two fill lines. A part whose turned position lies outside this range (as happens with a rotation centre away from the model) is printed without any fill at all, including its solid top and bottom layers, and no error is reported.", "quantifier": "all models, all planes files, all rotation centres, all settings with line filling, positive fill density, positive line width (and, for the unfilled parts, no supports, a positive layer height and one wall); all outcomes of unspecified Go operations; exact arithmetic", "why_tests_cant": "the loss shows only for combinations of rotation centre, angle and model; the bound holds for all of them", "anchors": ["slicers/vip/slice_by_planes.go:SliceByPlanes", "slicers/vip/utils.go:PrepareLayers", "slicers/fill_layer.go:CalcFillPlanes", "slicers/fill_layer.go:calcFillPlanesCommon", "slicers/fill_layer.go:FillLayers", "primitives/mesh.go:Rotate"]}
{"id": "C120", "title": "After the tilt the fill lines are farther apart than asked for", "statement": "With --slicing_type vip without a planes file and with line filling, the planes of the fill are turned along with the part above the first overhang, but so that they then stand inclined to the layers. In a layer printed after the tilt, the lines of the fill therefore run along parallel lines that are farther apart than asked for: by the factor r / sqrt(y^2 + x^2/4), where (x, y) is the horizontal direction of the overhang and r its length. For an overhang along X the lines are at least twice as far apart as the line width in the solid top and bottom layers and at least twice as far apart as the fill density asks for in the others, so that solid layers are not solid. In default mode this holds of every section printed tilted; in the sections printed with the bed level, before and between them, the lines lie at whole multiples of the distance asked for.", "quantifier": "all models with an overhang, all settings with line filling, positive line width and fill density, default and bridge mode; all outcomes of unspecified Go operations; exact arithmetic; and a float64 run with 0.4 mm lines more than 0.76 mm apart", "why_tests_cant": "the gap depends on the direction of the overhang, which varies continuously; the factor holds for all directions", "anchors": ["slicers/vip/slice_default.go:SliceDefault2", "slicers/vip/slice_bridge.go:SliceBridge", "slicers/fill_layer.go:CalcFillPlanes", "slicers/fill_layer.go:FillLayers", "primitives/plane.go:Rotate", "slicers/vip/utils.go:PrepareLayers"]}
