(** * Package gcode: the G-code emitter, text exact *)
From Coq Require Import ZArith NArith String Ascii List Bool.
From Verif Require Import Arith Prim.
Import ListNotations.
Open Scope string_scope.

(** "\n" *)
Definition nl : string := String (ascii_of_nat 10) EmptyString.

Section Gcode.
Context {A : Arith}.

(** gcode/gcode.go:8-20 *)
Record gsett := GSett {
  BarDiameter : num;
  Flow : num;
  LayerHeight : num;
  LineWidth : num;
  FanOffLayer1 : bool;
  PrintSpeed : Z;
  PrintSpeedLayer1 : Z;
  PrintSpeedWall : Z;
  Retraction : bool;
  RetractionSpeed : Z;
  RetractionDistance : num
}.

(** gcode/cmds.go:11-20 *)
Record gstate := GState {
  fan : bool;
  layerIndex : Z;
  eOff : num;
  feedrate : Z;
  isWall : bool;
  pos : point;
  st_t1 : num;
  st_t2 : num
}.

(** gcode/cmds.go:22-33 NewState *)
Definition newState : gstate := GState false 0 n0 0 false originPoint n0 n0.

Definition set_fan (s : gstate) (b : bool) :=
  GState b (layerIndex s) (eOff s) (feedrate s) (isWall s) (pos s) (st_t1 s) (st_t2 s).
Definition set_layerIndex (s : gstate) (i : Z) :=
  GState (fan s) i (eOff s) (feedrate s) (isWall s) (pos s) (st_t1 s) (st_t2 s).
Definition set_eOff (s : gstate) (e : num) :=
  GState (fan s) (layerIndex s) e (feedrate s) (isWall s) (pos s) (st_t1 s) (st_t2 s).
Definition set_feedrate (s : gstate) (f : Z) :=
  GState (fan s) (layerIndex s) (eOff s) f (isWall s) (pos s) (st_t1 s) (st_t2 s).
Definition set_isWall (s : gstate) (b : bool) :=
  GState (fan s) (layerIndex s) (eOff s) (feedrate s) b (pos s) (st_t1 s) (st_t2 s).
Definition set_pos (s : gstate) (p : point) :=
  GState (fan s) (layerIndex s) (eOff s) (feedrate s) (isWall s) p (st_t1 s) (st_t2 s).
Definition set_t1 (s : gstate) (t : num) :=
  GState (fan s) (layerIndex s) (eOff s) (feedrate s) (isWall s) (pos s) t (st_t2 s).
Definition set_t2 (s : gstate) (t : num) :=
  GState (fan s) (layerIndex s) (eOff s) (feedrate s) (isWall s) (pos s) (st_t1 s) t.

(** gcode/cmds.go:35-114: the implementations of the interface Command
    (InclineXBack 40, InclineX 58, RotateXZ 77, RotateZ 91, LayersMoving 112) *)
Inductive command :=
| InclineXBack
| InclineX
| RotateXZ (angleX angleZ : num)
| RotateZ (angle : num)
| LayersMoving (ls : list layer).

(** What a call writes: the arguments of the successive WriteString calls. *)
Definition out := list string.

(** gcode/cmds.go:138-144 decreaseEOff *)
Definition decreaseEOff (s : gstate) : gstate * out :=
  if (eOff s >? nofZ 4000)%num then (set_eOff s n0, ["G92 E0" ++ nl]) else (s, []).

(** gcode/cmds.go:146-159 switchFanGCode *)
Definition switchFanGCode (s : gstate) (sett : gsett) : gstate * out :=
  if (layerIndex s =? 0)%Z && FanOffLayer1 sett then
    if fan s then (set_fan s false, ["M107" ++ nl]) else (s, [])
  else
    if negb (fan s) then (set_fan s true, ["M106" ++ nl]) else (s, []).

(** gcode/cmds.go:161-177 printSpeedToGCode *)
Definition printSpeedToGCode (s : gstate) (sett : gsett) : gstate * out :=
  let needed := if (layerIndex s =? 0)%Z then PrintSpeedLayer1 sett
                else if isWall s then PrintSpeedWall sett else PrintSpeed sett in
  if negb (needed =? feedrate s)%Z
  then (set_feedrate s needed, ["G0 F" ++ itoa needed ++ nl])
  else (s, []).

(** gcode/cmds.go:179-185 retractionToGCode *)
Definition retractionToGCode (sett : gsett) : out :=
  if negb (Retraction sett) then []
  else ["G1 F" ++ itoa (RetractionSpeed sett) ++ " E" ++ strF (- RetractionDistance sett)%num ++ nl].

(** gcode/cmds.go:203-204: the increment of eOff for one segment *)
Definition eDelta (sett : gsett) (p1 p2 : point) : num :=
  (let lDist := nsqrt (nsq (px p2 - px p1) + nsq (py p2 - py p1) + nsq (pz p2 - pz p1)) in
   (nofZ 4 * LineWidth sett * LayerHeight sett * lDist) / (nsq (BarDiameter sett) * npi))%num.

(** gcode/cmds.go:200-206: the segments of one path *)
Fixpoint segsToGCode (sett : gsett) (e : num) (pts : path) : num * out :=
  match pts with
  | p1 :: (p2 :: _) as r =>
      let e' := (e + eDelta sett p1 p2)%num in
      let '(e'', o) := segsToGCode sett e' r in
      (e'', ("G1 " ++ stringGcode p2 p1 ++ " E" ++ strF e' ++ nl) :: o)
  | _ => (e, [])
  end.

(** gcode/cmds.go:193-208: one path; p.Points[0] panics on an empty path *)
Definition pathToGCode (sett : gsett) (s : gstate) (p : path) : res (gstate * out) :=
  match p with
  | [] => Panic
  | p0 :: _ =>
      let o1 := ["G0 " ++ stringDeltaZ (pos s) (nlit 5 10) ++ nl] in
      let o2 := retractionToGCode sett in
      let o3 := ["G0 " ++ stringDelta p0 n0 n0 (nlit 5 10) ++ nl;
                 "G0 " ++ stringDeltaZ p0 n0 ++ nl] in
      let '(e, o4) := segsToGCode sett (eOff s) p in
      Ok (set_pos (set_eOff s e) (last p p0), o1 ++ o2 ++ o3 ++ o4)%list
  end.

Fixpoint pathsLoop (sett : gsett) (s : gstate) (ps : list path) : res (gstate * out) :=
  match ps with
  | [] => Ok (s, [])
  | p :: r =>
      '(s1, o1) <- pathToGCode sett s p ;;
      '(s2, o2) <- pathsLoop sett s1 r ;;
      Ok (s2, o1 ++ o2)%list
  end.

(** gcode/cmds.go:187-210 pathesToGCode *)
Definition pathesToGCode (pths : list path) (comment : string) (sett : gsett) (s : gstate)
  : res (gstate * out) :=
  let '(s1, o1) := printSpeedToGCode s sett in
  '(s2, o2) <- pathsLoop sett s1 pths ;;
  Ok (s2, (";" ++ comment ++ nl)%string :: (o1 ++ o2)%list).

(** a nil and an empty slice behave alike in "range" *)
Definition oslice {T} (o : option (list T)) : list T :=
  match o with Some l => l | None => [] end.

(** gcode/cmds.go:118-129: the body of the loop over the layers *)
Definition layerToGCode (sett : gsett) (s : gstate) (l : layer) : res (gstate * out) :=
  let o0 := [";LAYER:" ++ itoa (layerIndex s) ++ nl] in
  let '(s1, o1) := switchFanGCode s sett in
  let s2 := set_isWall s1 true in
  '(s3, o3) <- pathesToGCode (l_paths l) "OUTER_PATHES" sett s2 ;;
  '(s4, o4) <- pathesToGCode (l_middle l) "MIDDLE_PATHES" sett s3 ;;
  '(s5, o5) <- pathesToGCode (oslice (l_inner l)) "INNER_PATHES" sett s4 ;;
  let s6 := set_isWall s5 false in
  '(s7, o7) <- pathesToGCode (l_fill l) "FILL_PATHES" sett s6 ;;
  let '(s8, o8) := decreaseEOff s7 in
  Ok (set_layerIndex s8 (layerIndex s8 + 1), o0 ++ o1 ++ o3 ++ o4 ++ o5 ++ o7 ++ o8)%list.

(** gcode/cmds.go:116-132 LayersMoving.ToGCode *)
Fixpoint layersToGCode (sett : gsett) (s : gstate) (ls : list layer) : res (gstate * out) :=
  match ls with
  | [] => Ok (s, [])
  | l :: r =>
      '(s1, o1) <- layerToGCode sett s l ;;
      '(s2, o2) <- layersToGCode sett s1 r ;;
      Ok (s2, o1 ++ o2)%list
  end.

(** Command.ToGCode: gcode/cmds.go:43-53, 61-72, 82-86, 95-107, 116-132 *)
Definition toGCode (c : command) (s : gstate) (sett : gsett) : res (gstate * out) :=
  match c with
  | InclineXBack =>
      Ok (set_t2 s n0,
          ["G0 X0 Y0 Z200 " ++ nl;
           "T2 " ++ nl;
           "G92 E" ++ strF (st_t2 s) ++ nl;
           "G1 F300 E0 " ++ nl;
           "G92 E0 " ++ nl;
           "T0 " ++ nl;
           "G92 E" ++ strF (eOff s) ++ nl])
  | InclineX =>
      Ok (set_t2 s (nofZ 60),
          ["G0 X0 Y0 Z200 " ++ nl;
           "T2 " ++ nl;
           "G92 E" ++ strF (st_t2 s) ++ " " ++ nl;
           "G1 F300 E60 " ++ nl;
           "G92 E0 " ++ nl;
           "T0 " ++ nl;
           "G92 E" ++ strF (eOff s) ++ nl])
  | RotateXZ ax az =>
      Ok (s, ["G62 X" ++ strF ax ++ " Z" ++ strF az ++ nl])
  | RotateZ a =>
      Ok (set_t1 s a,
          ["G0 X0 Y0 Z200 " ++ nl;
           "T1 " ++ nl;
           "G92 E" ++ strF (st_t1 s) ++ " " ++ nl;
           "G1 F300 E" ++ strF a ++ " " ++ nl;
           "G92 E0 " ++ nl;
           "T0 " ++ nl;
           "G92 E" ++ strF (eOff s) ++ nl])
  | LayersMoving ls => layersToGCode sett s ls
  end.

Fixpoint cmdsToGCode (sett : gsett) (s : gstate) (cs : list command) : res (gstate * out) :=
  match cs with
  | [] => Ok (s, [])
  | c :: r =>
      '(s1, o1) <- toGCode c s sett ;;
      '(s2, o2) <- cmdsToGCode sett s1 r ;;
      Ok (s2, o1 ++ o2)%list
  end.

(** gcode/gcode.go:21-24, 26-38: a Gcode is its settings and its commands *)
Record gcode := Gcode { g_sett : gsett; g_cmds : list command }.
Definition newGcode (sett : gsett) : gcode := Gcode sett [].
Definition g_add (g : gcode) (c : command) : gcode := Gcode (g_sett g) (g_cmds g ++ [c]).
Definition g_addLayers (g : gcode) (ls : list layer) : gcode := g_add g (LayersMoving ls).

(** gcode/gcode.go:40-45 ToOutput: the text written to the buffer *)
Definition toOutput (g : gcode) : res string :=
  '(_, o) <- cmdsToGCode (g_sett g) newState (g_cmds g) ;;
  Ok (String.concat "" o).

(** Command.LayersCount: cmds.go:54-56, 73-75, 87-89, 108-110, 134-136 *)
Definition layersCount (c : command) : nat :=
  match c with LayersMoving ls => List.length ls | _ => 0 end.

(** gcode/gcode.go:47-53 LayerCount *)
Definition layerCount (g : gcode) : nat :=
  fold_left (fun c cmd => c + layersCount cmd)%nat (g_cmds g) 0%nat.

End Gcode.
