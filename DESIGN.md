# Formal model of epit3d/goosli in Rocq/Coq 8.16

`/repo` (Go) is read as text; `/verif/rocq/theories` holds an executable Gallina
model of it and the theorems about that model. `properties.jsonl` lists the
properties in English, `MANIFEST.json` maps each of them to theorem names,
`seeded/LOG.jsonl` records the deliberate bugs the theorems were tried against.

## 1. How numbers are modelled

Almost every function of goosli computes with `float64`. The model is therefore
written once, against a record of *operations* only (class `Arith` in
`Arith.v`, no laws), and used at three levels:

* **any arithmetic** — the theorem quantifies over every `Arith`. It holds for
  IEEE doubles with NaN/Inf/-0, for exact reals, for anything. Used for
  structural properties (conservation, ordering, command sequences, frames).
  Where a law is needed it is a hypothesis (classes `TextOK`, `OrdOK`, `EqOK`,
  `MinMaxOK`), and the instances for float64 and the reals are proved.
* **float64** — instance `ArithF64 E` (`ArithF64.v`): Flocq's
  `BinarySingleNaN` binary64, round-to-nearest-even, NaN/Inf/signed zero as in
  Go; `math.Min/Max`, `Floor`, `Ceil`, `int(x)` (amd64: out of range gives
  -2^63), `FormatFloat(x,'f',3,64)` are modelled exactly. `sin, cos, acos` are
  parameters `E`, so float64 theorems hold for every implementation of them.
  This instance runs under `vm_compute`; counterexamples (`_refuted`) at this
  level are concrete doubles.
* **exact** — instance `ArithR` (`ArithR.v`): Coq's real numbers with exact
  `+ - * / sqrt sin cos acos PI`. Used for geometry. A theorem at this level says the
  *algorithm* is right; rounding error of the floats is not part of it.
  Division by zero is totalised in R, so exact theorems carry hypotheses that
  exclude it wherever the code divides.

Each property says at which level(s) it is stated.

## 2. Conventions

* Slices are lists. In-place mutation through a slice or pointer becomes a
  returned value; every place where aliasing could matter was read and is
  commented in the model (e.g. pointer comparison in `Triangle.IntersectTriangle`).
* A run-time panic (index out of range, nil dereference, log.Fatal) is the
  explicit value `Panic` of `res`; fuel exhaustion of a loop is the distinct value
  `Diverge`. Theorems that claim termination state that `Diverge` does not occur;
  theorems about the result of an unbounded slicer loop hold for every fuel.
* Unspecified outcomes of Go (map iteration order, `sort.Slice` with ties or
  with a comparator that is not an order, goroutine schedules) are explicit
  parameters/relations, and theorems quantify over all of them.
* G-code is modelled as the exact text written; theorems about "what the printer
  does" interpret the text with a small independent reader/executor
  (`GcodeSpec.v`, and `MainClaims.v` for whole files).
* The English property is restated in `*Claims.v`/`*Spec.v` files, separate from
  the model; the `Properties_*.v` files contain the theorems.
* A property that is false of the code is kept as what really holds, and the
  expectation that fails is refuted by a witness (`..._refuted`).

## 3. What is modelled

| Source | Model |
|---|---|
| primitives/{point,vector,plane,line,triangle,mesh,layer,utils}.go | `Prim.v`, `Slicer.v` |
| primitives/path.go | `Path.v` |
| primitives/stl.go | `Stl.v` (bytes), `Par.v` (workers) |
| gcode/*.go | `Gcode.v` |
| helpers/*.go | `Helpers.v`, `Vip.v` |
| slicers/{slice_by_vector,settings,utils,supports}.go | `Slicer.v`, `Par.v`, `Main.v` |
| slicers/fill_layer.go | `Fill.v` |
| slicers/slice_5axes.go, slice_by_profile.go, slicers/vip/*.go | `Vip.v` |
| cmd/goosli, cmd/cutter, cmd/simplifier, cmd/colorizer, cmd/analyzer, data/*_template.txt | `Main.v`, `Vip.v` |

Every definition carries the file and lines it models and says where it is
simplified. Simplifications in one place:

* integers that count things are unbounded (no overflow of `int`); settings
  multiplied by 60 do not overflow (`Main.v`);
* every NaN has one payload (`Stl.v`); white space in text files is ASCII white
  space (`Stl.v`); memory is not exhausted by large `make` calls;
* an iteration of a parallel loop is one atomic step, its effects being on
  disjoint elements, which C20 proves (`Par.v`);
* `ParseFloat` is a parameter (any function; C55 and C18 say what they need of it).

Not modelled:

* stdout/stderr output (println, log.Printf), the debug package and its file
  (`data/config.yaml`), kingpin's flag parsing, the text of `time.Now()` (a
  parameter), closing of files;
* the library `fogleman/simplify` (a parameter `oracle`; the conversion of meshes
  to and from it is part of `simplifyMesh`);
* the operating system beyond a byte sink that can stop accepting bytes;
* functions that nothing calls: `slicers/fill_layer.go:intersectByPlanePolygonWise`,
  `slicers/vip` `calculateCenter(s)` (and the commented-out `SliceDefault`), `primitives/utils.go:ToFile`;
* wall-clock time and memory use.

## 4. Trusted base

* Coq's kernel (8.16.1), including its `vm_compute` conversion.
* The axioms printed by `Print Assumptions` (section 6), all from Coq's standard
  library: `ClassicalDedekindReals.sig_forall_dec`, `sig_not_dec`,
  `functional_extensionality_dep` (the construction of the reals) and
  `Classical_Prop.classic` (used by Flocq's and Coq's real analysis).
* That the definitions of `Arith.v`, `ArithF64.v`, `Prim.v`, `Path.v`, `Gcode.v`,
  `Helpers.v`, `Slicer.v`, `Par.v`, `Stl.v`, `Fill.v`, `Vip.v`, `Main.v` say what
  the cited lines of Go do (Go's specification, amd64 where it leaves things open:
  conversion of out-of-range floats to int; no fused multiply-add).
* That the specification files (`GcodeSpec.v`, `*Claims.v`, `GeomSpec.v`) mean
  what the English properties say.
* Flocq's definition of binary64 as the meaning of Go's float64.

## 5. Property by property

Level and provisos are those of MANIFEST.json; the file is where the theorem is stated (with
its Examples, which show that the hypotheses can be met, and its Print Assumptions).

| Property | Level and provisos | Stated in | Model | Proof |
|---|---|---|---|---|
| C01 Layer markers are numbered consecutively and match LayerCount | any arithmetic satisfying TextOK (instances: float64, reals); text read back by the independent reader | Properties_Gcode.v | Gcode.v; reader and printer of GcodeSpec.v | the emitter is first refined to instructions (GcodeInstr.v, GcodeText.v: every emitted line reads back as its instruction), then invariants over commands, layers, paths and points |
| C02 Fan policy | any arithmetic satisfying TextOK (instances: float64, reals); text read back by the independent reader; printer starts with the fan off (header: M107) | Properties_Gcode.v | Gcode.v; reader and printer of GcodeSpec.v | the emitter is first refined to instructions (GcodeInstr.v, GcodeText.v: every emitted line reads back as its instruction), then invariants over commands, layers, paths and points |
| C03 Print moves run at the configured speed (no retraction, no bed motion) | any arithmetic satisfying TextOK (instances: float64, reals); text read back by the independent reader | Properties_Gcode.v | Gcode.v; reader and printer of GcodeSpec.v | the emitter is first refined to instructions (GcodeInstr.v, GcodeText.v: every emitted line reads back as its instruction), then invariants over commands, layers, paths and points |
| C04 Retraction and bed motion corrupt the remembered feedrate | any arithmetic satisfying TextOK (instances: float64, reals); text read back by the independent reader | Properties_Gcode.v | Gcode.v; reader and printer of GcodeSpec.v | the emitter is first refined to instructions (GcodeInstr.v, GcodeText.v: every emitted line reads back as its instruction), then invariants over commands, layers, paths and points |
| C05 Extruder position never decreases while printing | float64; guard: the two computed factors of the rate are positive, coordinates finite; without the guard refuted by a witness | Properties_Gcode.v | Gcode.v at float64 | monotonicity of rounded addition and multiplication (Flocq) |
| C06 Extruded filament is proportional to the printed length | exact arithmetic | Properties_Gcode.v | Gcode.v at exact and any level | telescoping sums; an explicit family of contours for the drift |
| C07 E register is reset before it grows without bound | any arithmetic satisfying TextOK (instances: float64, reals); text read back by the independent reader; with retraction, paths of two or more points | Properties_Gcode.v | Gcode.v; reader and printer of GcodeSpec.v | the emitter is first refined to instructions (GcodeInstr.v, GcodeText.v: every emitted line reads back as its instruction), then invariants over commands, layers, paths and points |
| C08 Bed rotation and tilt reach the commanded absolute angle | any arithmetic satisfying TextOK (instances: float64, reals); text read back by the independent reader; angles written as numbers | Properties_Gcode.v | Gcode.v; reader and printer of GcodeSpec.v | the emitter is first refined to instructions (GcodeInstr.v, GcodeText.v: every emitted line reads back as its instruction), then invariants over commands, layers, paths and points |
| C09 Where the head really goes: axis words are dropped only for sub-micron-scale steps, but drift is unbounded | positive part: any arithmetic; drift: exact arithmetic | Properties_Gcode.v | Gcode.v at exact and any level | telescoping sums; an explicit family of contours for the drift |
| C10 Travel moves between paths | any arithmetic satisfying TextOK (instances: float64, reals); text read back by the independent reader | Properties_Gcode.v | Gcode.v; reader and printer of GcodeSpec.v | the emitter is first refined to instructions (GcodeInstr.v, GcodeText.v: every emitted line reads back as its instruction), then invariants over commands, layers, paths and points |
| C11 Generated text is well-formed G-code | well-formedness for any arithmetic, finiteness of words for float64 | Properties_Gcode.v | Gcode.v; reader and printer of GcodeSpec.v | the emitter is first refined to instructions (GcodeInstr.v, GcodeText.v: every emitted line reads back as its instruction), then invariants over commands, layers, paths and points |
| C12 Printed numbers are correct to half a thousandth | float64 | Properties_Gcode.v | ArithF64.v (FormatFloat), Gcode.v StrF | integer rounding of m*2^e*1000, decimal printer and reader inverse to each other |
| C13 The Flow setting has no effect | any arithmetic | Properties_Gcode.v | Gcode.v; reader and printer of GcodeSpec.v | the emitter is first refined to instructions (GcodeInstr.v, GcodeText.v: every emitted line reads back as its instruction), then invariants over commands, layers, paths and points |
| C14 Every vertex of every path is visited in order | any arithmetic satisfying TextOK (instances: float64, reals); text read back by the independent reader | Properties_Gcode.v | Gcode.v; reader and printer of GcodeSpec.v | the emitter is first refined to instructions (GcodeInstr.v, GcodeText.v: every emitted line reads back as its instruction), then invariants over commands, layers, paths and points |
| C15 Retraction is written as an absolute E move | any arithmetic satisfying TextOK (instances: float64, reals); text read back by the independent reader | Properties_Gcode.v | Gcode.v; reader and printer of GcodeSpec.v | the emitter is first refined to instructions (GcodeInstr.v, GcodeText.v: every emitted line reads back as its instruction), then invariants over commands, layers, paths and points |
| C16 Binary STL round-trip | float64/float32 bit level; bytes of SaveSTL through LoadSTL; every finite, infinite or NaN coordinate; NaN payloads identified | Properties_Stl.v | Stl.v, byte level | codec round trip on Flocq bit patterns; induction over lines; invariant of the buffered writer over a bounded sink |
| C17 STL format detection | all byte strings; also: no file makes LoadSTL panic | Properties_Stl.v | Stl.v, byte level | codec round trip on Flocq bit patterns; induction over lines; invariant of the buffered writer over a bounded sink |
| C18 ASCII STL reading | any number parser; ASCII white space only (model exact for bytes below 128); a line of 65536 bytes or more stops reading with an error | Properties_Stl.v | Stl.v, byte level | codec round trip on Flocq bit patterns; induction over lines; invariant of the buffered writer over a bounded sink |
| C19 SaveSTL can report success for an incomplete file | bufio.Writer of 4096 bytes with sticky error over a disk accepting any number of bytes; exact condition for an error; deferred Close not modelled | Properties_Stl.v | Stl.v, byte level | codec round trip on Flocq bit patterns; induction over lines; invariant of the buffered writer over a bounded sink |
| C20 Parallel loops are schedule-independent | Small-step model of the strided workers; every execution is bounded, never stuck, ends with the sequential result, every index written once. | Properties_Slicer.v | Par.v, small-step | invariants over all interleavings, a decreasing measure, progress |
| C21 Slicing pipeline: result independent of the schedule, no deadlock | Small-step model of producer, workers and collector with buffer capacities n; no deadlock, bounded, collected layers sorted = layers of the jobs. C21_small_buffers_deadlock shows that the capacities matter. | Properties_Slicer.v | Par.v, small-step | invariants over all interleavings, a decreasing measure, progress |
| C22 The sweep hands every layer all triangles it meets | Exact arithmetic: all meshes, directions, supports. float64: direction z, no supports (handing over). | Properties_Slicer.v | Slicer.v | invariant of the sweep; real arithmetic for the heights; Flocq for the float64 hand-over |
| C23 Layer heights | Exact arithmetic; C23_points ties the points of the returned paths to the surface at that height. | Properties_Slicer.v | Slicer.v | invariant of the sweep; real arithmetic for the heights; Flocq for the float64 hand-over |
| C24 When slicing panics | The first two hold in any arithmetic, the others exactly. | Properties_Slicer.v | Slicer.v | invariant of the sweep; real arithmetic for the heights; Flocq for the float64 hand-over |
| C25 Only the outermost empty layers are dropped | Any arithmetic. | Properties_Slicer.v | Slicer.v | invariant of the sweep; real arithmetic for the heights; Flocq for the float64 hand-over |
| C26 Mesh extent | float64 with finite heights and exact arithmetic within the float64 range (class MinMaxOK with both instances); infinite heights: counterexample | Properties_Geom.v | Prim.v | algebra over R, case analysis on sides, vm_compute for float64 witnesses |
| C27 Plane-segment intersection | exact arithmetic | Properties_Geom.v | Prim.v | algebra over R, case analysis on sides, vm_compute for float64 witnesses |
| C28 Plane-triangle intersection | exact arithmetic; the section of the whole triangle is characterised, both directions | Properties_Geom.v | Prim.v | algebra over R, case analysis on sides, vm_compute for float64 witnesses |
| C29 Rounding to decimal places | exact arithmetic; float64 overflow of the int conversion shown by a witness | Properties_Geom.v | Prim.v | algebra over R, case analysis on sides, vm_compute for float64 witnesses |
| C30 Tolerant point equality is not an equivalence | float64 for Equal, exact arithmetic for keys, float64 key collision by witness | Properties_Geom.v | Prim.v | algebra over R, case analysis on sides, vm_compute for float64 witnesses |
| C31 Mesh rotation is a rigid motion and is undone by the reverse sequence | exact arithmetic | Properties_Geom.v | Prim.v | algebra over R, case analysis on sides, vm_compute for float64 witnesses |
| C32 JoinPaths3 conserves segments | any arithmetic, any permutation as outcome of the sort | Properties_Path.v | Path.v | union-find invariant: every root holds a chain of the segments seen; conservation as a permutation |
| C33 JoinPaths3 may leave joinable paths unjoined | float64 witness with the insertion sort that sort.Slice uses for at most 12 elements | Properties_Path.v | Path.v | union-find invariant: every root holds a chain of the segments seen; conservation as a permutation |
| C34 JoinPaths2 terminates and conserves segments for every map iteration order | any arithmetic whose == is symmetric and transitive (instances: float64, reals), any map iteration order | Properties_Path.v | Path.v | union-find invariant: every root holds a chain of the segments seen; conservation as a permutation |
| C35 MinimizeLines only removes vertices | any arithmetic | Properties_Path.v | Path.v | induction on the path; limits for the collapse |
| C36 MinimizeLines can cut off spikes and corners | exact arithmetic | Properties_Path.v | Path.v | induction on the path; limits for the collapse |
| C37 CutMesh keeps whole triangles on their side | any arithmetic, any permutation as outcome of the sort inside the joining; CutMesh never panics | Properties_Helpers.v | Helpers.v cutMesh, Prim.v | list reasoning on the pieces; vector area algebra |
| C38 CutMesh loses triangles that touch the plane in one vertex | any arithmetic for lost iff IntersectTriangle is nil; exact arithmetic for touching triangles | Properties_Helpers.v | Helpers.v cutMesh, Prim.v | list reasoning on the pieces; vector area algebra |
| C39 Caps of the two halves match | any arithmetic for winding and count, exact arithmetic for normals | Properties_Helpers.v | Helpers.v cutMesh, Prim.v | list reasoning on the pieces; vector area algebra |
| C40 Splitting a triangle conserves its oriented area | exact arithmetic; the exchange below the tolerance is characterised | Properties_Helpers.v | Helpers.v cutMesh, Prim.v | list reasoning on the pieces; vector area algebra |
| C41 Line simplification keeps the ends and stays within epsilon | exact arithmetic; structure and termination for any arithmetic | Properties_Helpers.v | Helpers.v simplifyLine | well-founded induction on the length |
| C42 Overhang colouring | exact arithmetic for the meaning of the flag, any arithmetic for the selection | Properties_Helpers.v | Helpers.v | list reasoning, counting modulo 2, Flocq for the witnesses |
| C43 Angle of antiparallel vectors can come out as 0 | exact arithmetic; float64 witnesses for any acos | Properties_Helpers.v | Helpers.v | list reasoning, counting modulo 2, Flocq for the witnesses |
| C44 Outline of a set of overhang triangles | any arithmetic whose == is symmetric and transitive (instances: float64, reals) | Properties_Helpers.v | Helpers.v | list reasoning, counting modulo 2, Flocq for the witnesses |
| C45 Fill planes are evenly spaced and cover the model (line fill) | exact arithmetic; coordinates within the float64 range (MinMaxZ starts from MaxFloat64) | Properties_Fill.v | Fill.v | floor and ceiling of multiples; parity of crossings; greedy invariant; literal witnesses |
| C46 Square fill does not cover every model | exact arithmetic; every density from 2, every line width, every number of steps; a refutation of full coverage | Properties_Fill.v | Fill.v | floor and ceiling of multiples; parity of crossings; greedy invariant; literal witnesses |
| C47 FillLayers touches only Fill, and uses full fill exactly for top and bottom layers | any arithmetic whose < is a strict order (float64, reals); never panics when fill paths already present are nonempty; n-TopLayers without overflow | Properties_Fill.v | Fill.v | floor and ceiling of multiples; parity of crossings; greedy invariant; literal witnesses |
| C48 Ordering fill paths loses nothing | any arithmetic whose < is a strict order (float64, reals) | Properties_Fill.v | Fill.v | floor and ceiling of multiples; parity of crossings; greedy invariant; literal witnesses |
| C49 Fill segments lie on the fill plane and end on contours | exact arithmetic; order for vertical planes (the only ones the code uses) | Properties_Fill.v | Fill.v | floor and ceiling of multiples; parity of crossings; greedy invariant; literal witnesses |
| C50 Number of walls | walls: any arithmetic whose < is a strict order; count: exact; defaults: float64 | Properties_Vip.v | Vip.v makeOffset, offset, skirtPathes | induction over walls and lines |
| C51 Bed commands around sliced parts | commands: any arithmetic; executed: any arithmetic satisfying TextOK (instances: float64, reals); text read back by the independent reader; angles written as numbers | Properties_Vip.v | Vip.v slicers with the printer of GcodeSpec.v | composition of the per-command theorems of the G-code part |
| C52 SliceByPlanes can leave the bed tilted | any arithmetic satisfying TextOK (instances: float64, reals); text read back by the independent reader; angles written as numbers | Properties_Vip.v | Vip.v slicers with the printer of GcodeSpec.v | composition of the per-command theorems of the G-code part |
| C53 Analyze suggests at most six planes, alternating tilted and horizontal | any arithmetic; any order of equal keys | Properties_Vip.v | Vip.v | loop invariants with fuel shown to suffice; trigonometry over R; text of the planes file |
| C54 Rotating the mesh by the cut plane's heading only levels half of the planes | exact arithmetic | Properties_Vip.v | Vip.v | loop invariants with fuel shown to suffice; trigonometry over R; text of the planes file |
| C55 Planes file round-trip | text: any arithmetic; numbers: float64 with ParseFloat specified as rounding to the nearest float32; direction: exact | Properties_Vip.v | Vip.v | loop invariants with fuel shown to suffice; trigonometry over R; text of the planes file |
| C56 SliceRotation and SliceBridge panic when there is no overhang | any arithmetic | Properties_Vip.v | Vip.v | loop invariants with fuel shown to suffice; trigonometry over R; text of the planes file |
| C57 Template substitution does not depend on map order | the proviso on values: no opening brace; names in the map are different names in braces | Properties_Main.v | Main.v, templates as text | tokenisation of the template; composition of header, program and footer on the printer of MainClaims.v |
| C58 Middle of the failing angles | exact arithmetic | Properties_Vip.v | Vip.v | loop invariants with fuel shown to suffice; trigonometry over R; text of the planes file |
| C59 Winding and holes | exact arithmetic | Properties_Geom.v | Prim.v, Path.v | sums over the contour |
| C60 Centroid of a horizontal contour | exact arithmetic | Properties_Geom.v | Prim.v, Path.v | sums over the contour |
| C61 When ToOutput panics | any arithmetic | Properties_Gcode.v | Gcode.v; reader and printer of GcodeSpec.v | the emitter is first refined to instructions (GcodeInstr.v, GcodeText.v: every emitted line reads back as its instruction), then invariants over commands, layers, paths and points |
| C62 Fill follows the even-odd rule | exact arithmetic | Properties_Fill.v | Fill.v | floor and ceiling of multiples; parity of crossings; greedy invariant; literal witnesses |
| C63 Low densities give no fill for squares and triangles | float64, amd64 conversion of NaN to int | Properties_Fill.v | Fill.v | floor and ceiling of multiples; parity of crossings; greedy invariant; literal witnesses |
| C64 Fill can run outside the contours when a vertex lies on the fill plane | exact arithmetic; refutes C62 without general position | Properties_Fill.v | Fill.v | floor and ceiling of multiples; parity of crossings; greedy invariant; literal witnesses |
| C65 A wall of a closed contour touches the contour at its first corner | any arithmetic; witness in float64 | Properties_Vip.v | Vip.v makeOffset, offset, skirtPathes | induction over walls and lines |
| C66 Parts stand on the bed with the cut plane level | exact arithmetic | Properties_Vip.v | Vip.v | loop invariants with fuel shown to suffice; trigonometry over R; text of the planes file |
| C67 A model of one layer is not printed | any arithmetic | Properties_Vip.v | Vip.v | loop invariants with fuel shown to suffice; trigonometry over R; text of the planes file |
| C68 The skirt keeps the contours | any arithmetic | Properties_Vip.v | Vip.v makeOffset, offset, skirtPathes | induction over walls and lines |
| C69 Which planes files can be read | any arithmetic | Properties_Vip.v | Vip.v | loop invariants with fuel shown to suffice; trigonometry over R; text of the planes file |
| C70 Models without an outside contour crash Slice | any arithmetic | Properties_Vip.v | Vip.v | loop invariants with fuel shown to suffice; trigonometry over R; text of the planes file |
| C71 Bed at the end of SliceRotation, SliceBridge and SliceDefault2 | any arithmetic satisfying TextOK (instances: float64, reals); text read back by the independent reader; angles written as numbers | Properties_Vip.v | Vip.v slicers with the printer of GcodeSpec.v | composition of the per-command theorems of the G-code part |
| C72 SliceByProfile: one part per segment of the centre line | any arithmetic | Properties_Profile.v, Properties_Vip.v | Vip.v slicers with the printer of GcodeSpec.v | composition of the per-command theorems of the G-code part |
| C73 Turning a mesh there and back | exact arithmetic; meshes made with NewTriangle | Properties_Vip.v | Vip.v | loop invariants with fuel shown to suffice; trigonometry over R; text of the planes file |
| C74 Horizontal ceilings give a plane without direction | float64 | Properties_Vip.v | Vip.v | loop invariants with fuel shown to suffice; trigonometry over R; text of the planes file |
| C75 The output file is header, program and footer | any arithmetic; the printer is the reader and machine of MainClaims.v; the date has no brace and no newline | Properties_Main.v | Main.v, templates as text | tokenisation of the template; composition of header, program and footer on the printer of MainClaims.v |
| C76 The fan still runs after the end of the file | any arithmetic | Properties_Main.v | Main.v, templates as text | tokenisation of the template; composition of header, program and footer on the printer of MainClaims.v |
| C77 The flags reach the printer | any arithmetic; flags as parsed; products with 60 do not overflow; sequential meaning of the slicers; fuel as in the slicers | Properties_Main.v | Main.v, templates as text | tokenisation of the template; composition of header, program and footer on the printer of MainClaims.v |
| C78 The three-axis mode never moves the bed | any arithmetic | Properties_Main.v | Main.v, templates as text | tokenisation of the template; composition of header, program and footer on the printer of MainClaims.v |
| C79 JoinPaths3 closes contours | any arithmetic with ordered numbers; the sort may do anything sort.Slice is allowed to do | Properties_Closed.v | Path.v joinPaths3 | invariant: open chains pairwise not joinable; a closed chain can never be missed because its two ends meet in one bucket of the sorted list |
| C80 Plane sections of closed surfaces are closed | exact arithmetic, 8-decimal rounding included | Properties_Closed.v | Prim.v, Path.v, Slicer.v | each section goes from the up-going to the down-going side; balance of sides gives the premise of C79 |
| C81 Slicing a closed model gives closed contours | exact arithmetic; every legal environment whose sort sorts strict weak orders | Properties_Closed.v | Prim.v, Path.v, Slicer.v | each section goes from the up-going to the down-going side; balance of sides gives the premise of C79 |
| C82 goosli_cutter writes the two parts | float64; any legal sort, any text parser | Properties_Tools.v | Main.v section Tools, Stl.v, Helpers.v, Vip.v | composition of the STL round trip (C16), CutMesh (C37), Analyze (C53) and the planes file (C55) |
| C83 goosli_simplifier leaves small models alone | float64; the simplification library is an arbitrary function | Properties_Tools.v | Main.v section Tools, Stl.v, Helpers.v, Vip.v | composition of the STL round trip (C16), CutMesh (C37), Analyze (C53) and the planes file (C55) |
| C84 goosli_colorizer: one byte per triangle | float64; any math.Acos; disk not full | Properties_Tools.v | Main.v section Tools, Stl.v, Helpers.v, Vip.v | composition of the STL round trip (C16), CutMesh (C37), Analyze (C53) and the planes file (C55) |
| C85 What goosli_analyzer writes, goosli reads | float64; whenever Analyze does not panic (C86) | Properties_Tools.v | Main.v section Tools, Stl.v, Helpers.v, Vip.v | composition of the STL round trip (C16), CutMesh (C37), Analyze (C53) and the planes file (C55) |
| C86 Analyze crashes on some models | any arithmetic; the claim that Analyze never crashes is refuted in float64 with accurate sin, cos, acos | Properties_Analyze.v | Vip.v analyze | invariant of the choice among the triangles; index beyond the mesh for the crash |
| C87 The first plane of Analyze | any arithmetic; position and tilt in exact arithmetic | Properties_Analyze.v | Vip.v analyze | invariant of the choice among the triangles; index beyond the mesh for the crash |
| C88 Direction of the parts of SliceByProfile | exact arithmetic | Properties_Profile.v | Vip.v sliceByProfile, Prim.v rotations | trigonometric identities over R; NaN followed through the rotations to make(chan, int(NaN)) |
| C89 SliceByProfile cannot print upright models | float64; sin, cos, acos arbitrary but NaN for NaN | Properties_Profile.v | Vip.v sliceByProfile, Prim.v rotations | trigonometric identities over R; NaN followed through the rotations to make(chan, int(NaN)) |
| C90 Where the cut at an overhang is and how it leans | exact arithmetic; witness of a bridge whose plane leans away from the overhang | Properties_Overhang.v | Vip.v calculateFails, failExistBridge | crossing of a contour with a vertical plane, rotations by degrees, tan 40 against acos; centroid under translation; squares for the witnesses |
| C91 Print moves stay within the paths of their layer | any arithmetic | Properties_Where.v | Gcode.v, Slicer.v, Fill.v, Main.v | invariant of the head along a path, lifted to layers and commands; composition with the heights of C23, the fill of C47 and C49 and the templates of C75 |
| C92 Three-axis printing stays at the height of the layer and within the model | exact arithmetic | Properties_Where.v | Gcode.v, Slicer.v, Fill.v, Main.v | invariant of the head along a path, lifted to layers and commands; composition with the heights of C23, the fill of C47 and C49 and the templates of C75 |
| C93 When three-axis mode succeeds | any arithmetic; which models succeed in exact arithmetic | Properties_Where.v | Gcode.v, Slicer.v, Fill.v, Main.v | invariant of the head along a path, lifted to layers and commands; composition with the heights of C23, the fill of C47 and C49 and the templates of C75 |
| C94 Filament per length for the flags | exact arithmetic | Properties_Flags.v | Main.v, Gcode.v, Vip.v, Fill.v | composition of C06 and C47 with the flags; congruence of every function of the settings by induction on its loops (C95); invariant of the layer lists (C97) |
| C95 The flow flag changes nothing | any arithmetic | Properties_Flags.v | Main.v, Gcode.v, Vip.v, Fill.v | composition of C06 and C47 with the flags; congruence of every function of the settings by induction on its loops (C95); invariant of the layer lists (C97) |
| C96 Fill flags in three-axis mode | any arithmetic | Properties_Flags.v | Main.v, Gcode.v, Vip.v, Fill.v | composition of C06 and C47 with the flags; congruence of every function of the settings by induction on its loops (C95); invariant of the layer lists (C97) |
| C97 The modes 5axes and 5axes_by_profile print contours only | any arithmetic | Properties_Flags.v | Main.v, Gcode.v, Vip.v, Fill.v | composition of C06 and C47 with the flags; congruence of every function of the settings by induction on its loops (C95); invariant of the layer lists (C97) |
| C98 What counts as an overhang | exact arithmetic | Properties_Overhang.v | Vip.v calculateFails, failExistBridge | crossing of a contour with a vertical plane, rotations by degrees, tan 40 against acos; centroid under translation; squares for the witnesses |
| C99 Upright walls are not cut | exact arithmetic; witness for nested contours | Properties_Overhang.v | Vip.v calculateFails, failExistBridge | crossing of a contour with a vertical plane, rotations by degrees, tan 40 against acos; centroid under translation; squares for the witnesses |
| C100 The parts of a cut model are closed again | exact arithmetic; float64 witness: the parts of a cut box are open | Properties_Cut.v | Helpers.v cutMesh, splitOnThree, cap_fan | signed count of every side over pieces and lids (CutProofs.v net); crossing points of neighbouring triangles agree; cross products against the 1e-6 test of AlmostZero; cavity example by integer checkers |
| C101 A hole in the section of a cut | exact arithmetic; float64 witness: lids over the hole of a tube | Properties_Cut.v | Helpers.v cutMesh, splitOnThree, cap_fan | signed count of every side over pieces and lids (CutProofs.v net); crossing points of neighbouring triangles agree; cross products against the 1e-6 test of AlmostZero; cavity example by integer checkers |
| C102 Dividing one triangle | exact arithmetic; float64 witness for large triangles | Properties_Cut.v | Helpers.v cutMesh, splitOnThree, cap_fan | signed count of every side over pieces and lids (CutProofs.v net); crossing points of neighbouring triangles agree; cross products against the 1e-6 test of AlmostZero; cavity example by integer checkers |
| C103 Every point of a wall is at the line width from some side | exact arithmetic; float64 witness: walls of thin strips are outside of the strip | Properties_Offset.v | Vip.v makeOffset, Prim.v intersectLine2 | plane geometry of shifted lines; invariant of the trimming loop; induction over the corners |
| C104 The wall of a well-shaped contour | exact arithmetic | Properties_Offset.v | Vip.v makeOffset, Prim.v intersectLine2 | plane geometry of shifted lines; invariant of the trimming loop; induction over the corners |
| C105 Where the supports are | exact arithmetic | Properties_Support.v | Slicer.v supportTriangles, Helpers.v makeSupportLines, intersectTriangles, Prim.v proectionPointToPlane, t_pointBelongs | set of the triangles by induction; convexity of the two halves; PointBelongs degenerates on upright triangles; direction of sections and chains of joined segments |
| C106 Upright sides remove supports at any distance | exact arithmetic; float64 witness. The expectation that walls are only left out where they meet the model is refuted | Properties_Support.v | Slicer.v supportTriangles, Helpers.v makeSupportLines, intersectTriangles, Prim.v proectionPointToPlane, t_pointBelongs | set of the triangles by induction; convexity of the two halves; PointBelongs degenerates on upright triangles; direction of sections and chains of joined segments |
| C107 Support contours are not closed | exact arithmetic | Properties_Support.v | Slicer.v supportTriangles, Helpers.v makeSupportLines, intersectTriangles, Prim.v proectionPointToPlane, t_pointBelongs | set of the triangles by induction; convexity of the two halves; PointBelongs degenerates on upright triangles; direction of sections and chains of joined segments |
| C108 When two triangles are found to meet | exact arithmetic; in general position; the unrestricted claim is refuted | Properties_Meet.v | Prim.v t_intersectTriangle, t_pointBelongs, intersectLine, orientation, Helpers.v intersectTriangles | barycentric weights of the ends of a segment: signs of the weights and of their 2x2 minors decide whether the segment passes over the triangle; rounding of the section against the unnormalised normal for the witness |
| C109 Whether a point is inside a contour | exact arithmetic; in ordinary positions; the unrestricted claim is refuted in three ways | Properties_Inside.v | Path.v pt_inside, inside_count, Prim.v intersectSegment, projectOnPlane, codirected, Vip.v findPrevPath | the count of the code is the number of sides crossed by the ray towards the first side; parities for two rays differ by whether the two ends of the contour are in the same sector, by signs of four determinants per side, and telescope along a closed contour |
| C110 The fill is inside the contours | exact arithmetic | Properties_FillInside.v | Fill.v intersectByPlane, fillLayers, Prim.v sortFillPathes | the number of crossings of the plane before a point (C50) is the number of sides crossed by the ray backwards along the plane, since at_plane and the ray meet a side in the same point; with the parity of C109 for several contours any free ray decides; C47 and C49 carry it to layers |
| C111 Layers are sections of the solid, and the fill is inside it | exact arithmetic; points nearer to the surface than the rounding, and points between nearly collinear corners, excepted | Properties_Solid.v | Slicer.v sliceByVector, Prim.v intersectTriangle, Path.v joinPaths3, minimizeLines, Fill.v fillLayers | a ray pierces a triangle exactly when it meets the triangle's section, and each section comes from one triangle; moving the corners of a polygon by less than the distance to the ray's start and line keeps the parity, so rounding does; joining permutes the sides (C23); minimisation removes triangles between consecutive corners, which the parity does not see unless the point is in one (tri_even); with C110 the fill follows |
| C112 A three-axis file prints the sections of the model | exact arithmetic; points nearer to the surface than the rounding, and points between nearly collinear corners, excepted | Properties_Print.v | Main.v goosli, sliceByVectorToGcode, Slicer.v sliceByVector, Fill.v calcFillPlanes, fillLayers, Gcode.v toOutput | composition: the file is what ToOutput makes of the layers (C75), which visits them in order (C14, C91); each layer is the joined section of its height (C22, C23) and encloses what the model encloses (C111); the fill planes are upright (C45), so each fill line is plane and solid (C110), and sorting loses none of them since their ends are nearer than MaxFloat32 (C48) |
| C113 With Go's own floats, a three-axis file prints each layer at its height and within the model | float64; coordinates up to 10000 mm, layers of at least 1e-4 mm | Properties_Float.v | Slicer.v sliceByVector, Prim.v intersectSegment, intersectTriangle, round8, Fill.v calcFillPlanes, fillPath, Main.v goosli, all in ArithF64 | Flocq error bounds of each float64 operation; a cut needs 0 <= t <= 1 after rounding, which bounds t whatever cancellation occurs, so the cut is near the side, and the equation of the plane gives its height; the accumulated height of the plane by induction over the layers; the fill planes have a component pattern that keeps the intersections on the segment; then the text (C14, C75, C91) |
| C114 Printed part by part, nothing already printed stands above the head | exact arithmetic; supports off | Properties_Sides.v | Helpers.v cutMesh, Vip.v readPlanes, sliceByPlanes, prepareLayers, skirtPathes, makeOffset, Slicer.v sliceByVector, Fill.v fillPath, Main.v goosli, in ArithR | a cut point is a convex combination of the ends of a side, rounded; so a half-space holding a mesh holds both halves up to the rounding, and each half is on its side of the plane, by induction over the planes; the rotation of the bed takes the plane of the part to a level plane; walls, skirt and fill keep the height of their contour; then the bed commands as executed (C51) and the text (C75) |
| C115 When printing by planes succeeds | any arithmetic (C115_planes); exact arithmetic for the conditions on heights | Properties_Sides.v | Vip.v sliceByPlanes, prepareLayers, skirtPathes, Slicer.v sliceByVector, Gcode.v toOutput, Main.v goosli | each later stage is total on its own inputs (C61 for the output, totality of walls, fill and cutting); slicing succeeds or fails by C24 with the heights of the part on its bed |
| C116 Each slicing type reads only its own flags | any arithmetic; the time of day is the same in both runs | Properties_Reads.v | Main.v settingsOf, goosli, slicing, and all slicers below it | an enumeration of the flags and a table of those each slicing type reads; two settings that agree on the table give equal results of every stage, by induction over the loops; examples change one flag of the table and get another file |
| C117 Rotation mode prints inclined layers with the bed tilted | exact arithmetic; the expected level layers are refuted in float64 by C117_level_refuted | Properties_Tilted.v, Properties_Tilted2.v | Vip.v sliceRotation, slice, prepareLayers, Slicer.v sliceByVector, Helpers.v cutMesh | the direction of slicing is the vertical turned by the same rotation as the mesh, so the contours (C23) lie in planes across it; walls and fill do not change the contours; a run of Slice in float64 on two drums shows two vertices of one contour more than 1 mm apart in height |
| C118 The slicers of vip contradict each other on the direction of the tilt | any arithmetic (C118_commands), exact arithmetic otherwise | Properties_Opposite.v | Vip.v sliceDefault2, sliceBridge, heading, turn_mesh, read_normal, VipClaims.v turned, inclined | the commands by running the slicer to its first tilt; the directions by the closed form of the normal read from a file and of the heading; the heights by the closed form of the two turns |
| C119 The fill of a print by planes does not follow the parts when the bed is turned | exact arithmetic | Properties_FillTurn.v | Vip.v sliceByPlanes, prepareLayers, Fill.v calcFillPlanes, fillLayers, intersectByPlane, VipClaims.v turned, inclined | every fill point lies on a fill plane (C47, C49); the planes lie within the extent of the unturned model; the contours of a part lie within rounding of its turned triangles (C23), so both cannot meet |
| C120 After the tilt the fill lines are farther apart than asked for | exact arithmetic; C120_solid_refuted shows in float64 that solid layers after the tilt need not be solid | Properties_Sections.v, Properties_Spacing.v, Properties_Spacing2.v | Vip.v default_loop, sliceBridge, turn_plane, prepareLayers, Fill.v calcFillPlanes, fillLayers | every fill point of a layer after the tilt lies on a turned fill plane (C47, C49); the planes are parallel and a whole multiple of the gap apart, and their trace in a level layer is computed exactly; the float64 run is computed by the kernel; induction over the sections of default mode, in which turning the planes back undoes the turn |

## 6. Print Assumptions

Output of `Print Assumptions` for every theorem named in MANIFEST.json, grouped. All axioms are
those of Coq's standard library (classical real numbers and classical logic); none is added here.

### Closed under the global context (87 theorems)

C01_layer_markers, C02_fan_policy, C03_print_speed, C04_retraction_speed, C04_speed_after_bed_motion, C07_register, C07_reset, C08_bed_angles, C08_bed_neutral, C09_C10_head_positions, C10_travel_does_not_extrude, C11_well_formed, C13_flow_ignored, C14_visits, C15_retraction_absolute, C18_text_not_binary, C20_strided, C20_no_race, C20_copyTriangles, C21_pipeline, C21_arrival_irrelevant, C21_layers, C24_empty_mesh, C24_no_layer_panics, C25_trim, C26_extent, C26_extent_empty, C29_round_places_panics, C32_join3_conserves, C32_join3_panics_on_empty, C32_join3_sides, C34_join2_conserves, C34_join2_sides, C35_minimize, C37_cut_pieces, C37_whole_kept, C38_straddling_lost, C38_straddling_split, C39_caps, C39_same_count, C41_simplify_any, C41_short, C42_filter, C44_undoubled, C44_internal_deleted, C44_manifold_same, C47_fill, C48_greedy, C48_far, C48_total, C50_walls, C51_beds, C51_executed, C52_left_tilted, C53_analyze, C55_file, C56_rotation_panics, C56_bridge_panics, C57_templates, C57_nested_refuted, C61_output_total, C65_first_line, C67_one_layer, C68_skirt, C69_lines, C70_no_layers, C71_bed_returned, C71_default_alternates, C72_profile, C72_angles, C75_whole_file, C75_header_text, C76_fan_left_on, C77_command, C78_bed_still, C79_join3_closes, C86_crash, C87_first_plane, C91_where, C93_three_axes, C95_flow_ignored, C96_fill, C97_contours_only, C115_planes, C116_program, C116_file, C118_commands

### `ClassicalDedekindReals.sig_forall_dec`, `FunctionalExtensionality.functional_extensionality_dep` (1 theorems)

C23_heights

### `ClassicalDedekindReals.sig_forall_dec`, `ClassicalDedekindReals.sig_not_dec`, `Classical_Prop.classic`, `FunctionalExtensionality.functional_extensionality_dep` (167 theorems)

C05_E_never_decreases, C05_zero_width_refuted, C06_extruded_length, C09_drift_refuted, C11_words_finite, C12_written_numbers, C16_roundtrip, C16_rounding_unique, C16_exact, C16_stable, C17_short, C17_binary, C17_ascii, C17_truncated, C17_extended, C17_total, C18_ascii, C18_printed, C18_long_line, C19_outcome, C19_silent_loss, C19_error_is_real, C22_handed, C22_layers, C22_handed_float, C23_points, C24_flat_panics, C24_panics_iff, C26_extent_float, C26_infinite_height_refuted, C27_segment, C28_triangle, C28_nil_one_side, C28_found, C29_round_places, C29_float_overflow_refuted, C30_equal_float, C30_equal_infinite_refuted, C30_not_transitive_refuted, C30_same_key_equal, C30_equal_different_keys, C30_key_collision_refuted, C31_rigid, C31_undo, C33_join3_incomplete_refuted, C34_join2_incomplete_refuted, C36_spike_cut, C36_closed_collapse, C38_touching_lost, C39_cap_normals, C40_split, C40_split_any_points, C40_small_refuted, C41_simplify, C41_negative_diverges, C41_segment_refuted, C42_colorize, C43_angle_exact, C43_opposite_zero_refuted, C43_facing_up_flagged_refuted, C45_multiples, C45_lines_cover, C45_full_cover, C46_squares_miss, C49_on_contours, C49_ordered, C50_count_exact, C50_defaults_float, C54_levelled_iff, C54_heights, C55_numbers, C55_direction_iff, C58_middle, C59_winding, C59_invariance, C60_centroid, C62_even_odd, C63_squares, C63_triangles, C64_vertex_refuted, C65_distance_refuted, C66_heights, C73_turn_back, C74_ceiling, C80_sections, C80_rings, C80_sides, C81_closed_layers, C82_cutter, C82_unreadable, C82_silent_loss, C82_full_disk, C83_small, C83_large, C83_full_disk, C84_bytes, C84_local, C85_readable, C85_bed, C86_analyze_total_refuted, C87_exact, C88_upright_iff, C88_along_refuted, C89_upright, C90_cut_plane, C90_bridge, C90_levelled_iff, C90_toward_refuted, C92_three_axes, C93_exact, C94_filament, C98_cause, C98_found, C98_taper, C98_spread, C99_upright, C99_nested_refuted, C100_pieces, C100_closed, C100_box_refuted, C101_holes, C101_lid_refuted, C102_divided, C102_large_refuted, C103_points, C103_thin_refuted, C104_wall, C105_walls, C105_under, C106_upright_sides, C106_far_refuted, C107_open, C108_meets, C108_small, C108_supports, C108_slanted_refuted, C109_inside, C109_same_height, C109_first_line, C109_below, C109_corner_refuted, C109_lifted_refuted, C109_line_refuted, C110_line, C110_layers, C111_layers, C111_fill, C112_three_axes, C113_contours, C113_three_axes, C114_parts, C114_above, C115_exact, C115_flat, C117_inclined, C117_level_refuted, C118_opposite, C118_heights, C118_position_overhang, C118_position_planes, C119_range, C119_unfilled, C120_spacing, C120_double, C120_level, C120_tilted, C120_solid_refuted
