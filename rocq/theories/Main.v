(** * The commands: cmd/goosli and the other binaries, templates *)
From Coq Require Import ZArith NArith String Ascii List Bool PeanoNat.
From Verif Require Import Arith Prim Path Helpers Gcode Slicer Fill Stl Vip.
Import ListNotations.
Close Scope Z_scope.

(** ** Templates *)

(** strings.Replace(s, old, new, -1) for a non-empty [old] (primitives/utils.go:23): from the
    left, occurrences do not overlap. [skip] characters of an occurrence are still to be
    passed. *)
Fixpoint replace_from (old new : string) (skip : nat) (s : string) : string :=
  match s with
  | EmptyString => EmptyString
  | String c r =>
      match skip with
      | S k => replace_from old new k r
      | O => if String.prefix old s then append new (replace_from old new (String.length old - 1) r)
             else String c (replace_from old new 0 r)
      end
  end.
Definition replaceAll (s old new : string) : string := replace_from old new 0 s.

(** primitives/utils.go:16-26 PrepareDataFile. [file] are the contents, [None] if they cannot
    be read: log.Fatal ends the program, here [Panic]. [m] lists the map in the order in which
    the range statement visits it, which Go leaves open. *)
Definition prepareDataFile (file : option string) (m : list (string * string)) : res string :=
  match file with
  | None => Panic
  | Some data => Ok (fold_left (fun s kv => replaceAll s (fst kv) (snd kv)) m data)
  end.

(** data/header_template.txt:1-25 *)
Definition header_template : string :=
";Generated with Goosli
;Sliced at: {datetime}
;Layer height: {layer_height}, Walls: {wall_thickness}, Fill: {fill_density}%
;Print time: {print_time}
;Filament used: {filament_amount}m {filament_weight}g
;Filament cost: {filament_cost}

T0
M190 S{bed_temperature}         ;Set bed temperature and wait
M109 S{extruder_temperature}    ;Set extruder temperature and wait
G21             ;metric values
G90             ;absolute positioning
M82             ;set extruder to absolute mode
M107            ;start with the fan off
;G28 X0 Y0       ;move X/Y to min endstops
;G28 Z0          ;move Z to min endstops
G28 ;Home for our delta-printer
G1 Z15.0 F{print_speed}     ;move the platform down 15mm
G92 E0                      ;zero the extruded length
G1 F200 E3                  ;extrude 3mm of feed stock
G92 E0                      ;zero the extruded length again
G1 F{print_speed}
;Put printing message on LCD screen
M117 Printing...
;LAYER_COUNT:{layer_count}
".

(** data/footer_template.txt:1-12 *)
Definition footer_template : string :=
"
;End GCode
;M107
M104 S0                                 ;extruder heater off
M140 S0                                 ;heated bed heater off (if you have it)
G91                                     ;relative positioning
G1 E-1 F300                             ;retract the filament a bit before lifting the nozzle, to release some of the pressure
G1 Z+0.5 E-5 X-20 Y-20 F{print_speed}   ;move Z up a bit and retract filament even more
G28 X0 Y0                               ;move X/Y to min endstops, so the head is out of the way
M84                                     ;steppers off
G90                                     ;absolute positioning
M82                                     ;absolute extrusion mode
".

Section Main.
Context {A : Arith}.

(** slicers/settings.go:32-44 ToMap *)
Definition toMap (s : settings) : list (string * string) :=
  [("{datetime}", s_dateTime s);
   ("{layer_height}", strF (s_layerHeight s));
   ("{wall_thickness}", strF (s_wallThickness s));
   ("{fill_density}", itoa (s_fillDensity s));
   ("{bed_temperature}", itoa (s_bedTemperature s));
   ("{extruder_temperature}", itoa (s_extruderTemperature s));
   ("{print_speed}", itoa (PrintSpeed (s_g s)));
   ("{layer_count}", itoa (s_layerCount s))]%string.

(** settings.LayerCount = .. (cmd/goosli/goosli.go:136) *)
Definition set_layerCount (s : settings) (n : Z) : settings :=
  Settings (s_g s) (s_dateTime s) (s_epsilon s) (s_layerHeight s) (s_wallThickness s) (s_fillDensity s)
    (s_bedTemperature s) (s_extruderTemperature s) n (s_rotationCenter s) (s_planesFile s) (s_fillingType s)
    (s_colorizedAngle s) (s_unitVector s) (s_supportsOn s) (s_supportOffset s) (s_topLayers s) (s_bottomLayers s)
    (s_skirtLineCount s).

(** cmd/goosli/goosli.go:135-144 CommandsWithTemplates; [order1] and [order2] are the orders
    in which the map is visited for the two files *)
Definition commandsWithTemplates (order1 order2 : list (string * string) -> list (string * string))
    (header footer : option string) (g : gcode) (s : settings) : res string :=
  let s := set_layerCount s (Z.of_nat (layerCount g)) in
  h <- prepareDataFile header (order1 (toMap s)) ;;
  b <- toOutput g ;;
  f <- prepareDataFile footer (order2 (toMap s)) ;;
  Ok (append h (append b f)).

(** ** cmd/goosli *)

(** cmd/goosli/goosli.go:16-60: the flags as kingpin has parsed them (kingpin itself and the
    files' names are not modelled) *)
Record flags := Flags {
  fl_origin : vector;                      (* originx, originy, originz *)
  fl_rotc : point;                         (* rotcx, rotcy, rotcz *)
  fl_epsilon : num;
  fl_layerHeight : num;
  fl_wallThickness : num;
  fl_fillDensity : Z;
  fl_topLayers : Z;
  fl_bottomLayers : Z;
  fl_bedTemperature : Z;
  fl_extruderTemperature : Z;
  fl_printSpeed : Z;
  fl_printSpeedLayer1 : Z;
  fl_printSpeedWall : Z;
  fl_fanOffLayer1 : bool;
  fl_lineWidth : num;
  fl_fillingType : string;
  fl_retraction : bool;
  fl_retractionSpeed : Z;
  fl_retractionDistance : num;
  fl_planesFile : string;
  fl_slicingType : string;
  fl_angle : num;
  fl_normal : vector;                      (* normali, normalj, normalk *)
  fl_supportsOn : bool;
  fl_supportOffset : num;
  fl_barDiameter : num;
  fl_flow : num;
  fl_skirtLineCount : Z
}.

(** cmd/goosli/goosli.go:64-101 settings; [now] is the text of time.Now(). Simplified: the
    products do not overflow. *)
Definition settingsOf (now : string) (f : flags) : settings :=
  Settings
    (GSett (fl_barDiameter f) (fl_flow f) (fl_layerHeight f) (fl_lineWidth f) (fl_fanOffLayer1 f)
           (fl_printSpeed f * 60) (fl_printSpeedLayer1 f * 60) (fl_printSpeedWall f * 60)
           (fl_retraction f) (fl_retractionSpeed f) (fl_retractionDistance f))
    now (fl_epsilon f) (fl_layerHeight f) (fl_wallThickness f) (fl_fillDensity f)
    (fl_bedTemperature f) (fl_extruderTemperature f) 0 (fl_rotc f) (fl_planesFile f) (fl_fillingType f)
    (fl_angle f) (fl_normal f) (fl_supportsOn f) (fl_supportOffset f) (fl_topLayers f) (fl_bottomLayers f)
    (fl_skirtLineCount f).

(** slicers/slice_by_vector.go:13-22 SliceByVectorToGcode *)
Definition sliceByVectorToGcode (U : env) (m : mesh) (Z : vector) (s : settings) : res gcode :=
  layers <- sliceByVector U m Z s ;;
  let '(fp, ff) := calcFillPlanes m s in
  layers <- fillLayers U layers fp ff s ;;
  Ok (g_addLayers (newGcode (s_g s)) layers).

(** What cmd/goosli finds outside: the mesh of the STL file, the planes file, the templates,
    the text of the time, and what Go leaves open. [ex_fuel] bounds the number of cuts, see
    [sliceDefault2], [five_loop], [simplifyLine]. *)
Record outside := Outside {
  ex_mesh : mesh;
  ex_planes : option (list Z);
  ex_header : option string;
  ex_footer : option string;
  ex_now : string;
  ex_order1 : list (string * string) -> list (string * string);
  ex_order2 : list (string * string) -> list (string * string);
  ex_U : env;
  ex_parse : list Z -> num;
  ex_simplify : num -> list (point * point * point) -> list (point * point * point);
  ex_beyond : nat -> list layer -> res (list layer);
  ex_fuel : nat
}.

(** cmd/goosli/goosli.go:113-125; log.Fatal for other types is [Panic] *)
Definition slicing (X : outside) (f : flags) : res gcode :=
  let m := m_shift (ex_mesh X) (fl_origin f) in
  let s := settingsOf (ex_now X) f in
  if String.eqb (fl_slicingType f) "3axes" then sliceByVectorToGcode (ex_U X) m axisZ s
  else if String.eqb (fl_slicingType f) "5axes_by_profile" then sliceByProfile (ex_fuel X) (ex_U X) m s
  else if String.eqb (fl_slicingType f) "5axes" then slice5Axes (ex_fuel X) (ex_U X) (ex_simplify X) (ex_beyond X) m s
  else if String.eqb (fl_slicingType f) "vip" then Vip.slice (ex_fuel X) (ex_U X) (ex_parse X) (ex_planes X) m s
  else Panic.

(** cmd/goosli/goosli.go:101-133 main after LoadSTL has succeeded: the contents of the output
    file (writing it is not modelled) *)
Definition goosli (X : outside) (f : flags) : res string :=
  g <- slicing X f ;;
  commandsWithTemplates (ex_order1 X) (ex_order2 X) (ex_header X) (ex_footer X) g (settingsOf (ex_now X) f).

End Main.

(** ** The other binaries *)
Section Tools.
Variable E : ArithF64.elem.
Let AE := ArithF64.ArithF64 E.
Existing Instance AE.

(** the mesh that LoadSTL gives; log.Fatal if there is an error *)
Definition load_or_stop (parse : list Z -> num) (file : list Z) : res (@mesh AE) :=
  l <- loadSTL E parse file ;;
  match l with
  | Gives _ m false => Ok m
  | _ => Panic
  end.

(** cmd/goosli_cutter/goosli_cutter.go:22-46 main: the two files, on a disk with [limit1] and
    [limit2] bytes left for them *)
Definition cutter (srt : list sortp -> list sortp) (parse : list Z -> num) (limit1 limit2 : nat)
    (file : list Z) (p : plane) : res (list Z * list Z) :=
  m <- load_or_stop parse file ;;
  '(up, down) <- cutMesh srt m p ;;
  '(f1, e1) <- saveSTL E limit1 up ;;
  if (e1 : bool) then Panic else
  '(f2, e2) <- saveSTL E limit2 down ;;
  if (e2 : bool) then Panic else Ok (f1, f2).

(** cmd/goosli_simplifier/goosli_simplifier.go:16-36 main *)
Definition simplifier (oracle : num -> list (point * point * point) -> list (point * point * point))
    (parse : list Z -> num) (limit : nat) (file : list Z) (n : Z) : res (list Z) :=
  m <- load_or_stop parse file ;;
  match simplifyMesh oracle (Some m) n with
  | None => Panic
  | Some m =>
      '(f, e) <- saveSTL E limit m ;;
      if (e : bool) then Panic else Ok f
  end.

(** cmd/goosli_colorizer/goosli_colorizer.go:24-51 main: binary.Write of a []bool is a byte
    for each; the bufio.Writer is flushed. The disk is not full. *)
Definition colorizer (parse : list Z -> num) (file : list Z) (ang : num) (v : vector) : res (list Z) :=
  m <- load_or_stop parse file ;;
  Ok (map (fun b : bool => if b then 1%Z else 0%Z) (colorizeTriangles m ang v)).

(** cmd/goosli_analyzer/goosli_analyzer.go:26-49 main *)
Definition analyzer (fuel : nat) (U : env) (parse : list Z -> num) (file : list Z) (origin : vector) (ang : num) : res (list Z) :=
  m <- load_or_stop parse file ;;
  ps <- analyze fuel U (m_shift m origin) ang ;;
  Ok (analyzerFile ps).
End Tools.
