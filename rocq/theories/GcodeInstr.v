(** * The emitter as a generator of instructions

    The intended instruction sequence of a command list: what C11 says the text
    stands for. Values are the decimals StrF shows. *)
From Coq Require Import ZArith NArith String Ascii List Bool.
From Verif Require Import Arith Prim Gcode GcodeSpec.
Import ListNotations.

(** the number a decimal stands for *)
Definition val_of_fix3 (f : fix3) : val :=
  match f with
  | F3 neg m => VFin (if neg then - Z.of_N m else Z.of_N m)
  | F3inf b => VInf b
  | F3nan => VNaN
  end.

Section Instr.
Context {A : Arith}.
Open Scope char_scope.

(** a float as written in the text *)
Definition V (x : num) : val := val_of_fix3 (nfix3 x).
(** an integer as written in the text *)
Definition VZ (z : Z) : val := VFin (z * 1000).

Definition G (n : Z) (ws : list word) : instr := Instr ("G", VZ n) ws.
Definition M (n : Z) : instr := Instr ("M", VZ n) [].
Definition T (n : Z) : instr := Instr ("T", VZ n) [].

(** axis words of a move from b to a: only axes that change by 0.001 or more *)
Definition axis_words (a b : point) : list word :=
  ((if nleb (nlit 1 1000) (nabs (px a - px b)%num) then [("X", V (px a))] else []) ++
   (if nleb (nlit 1 1000) (nabs (py a - py b)%num) then [("Y", V (py a))] else []) ++
   (if nleb (nlit 1 1000) (nabs (pz a - pz b)%num) then [("Z", V (pz a))] else []))%list.

Fixpoint i_segs (sett : gsett) (e : num) (pts : path) : list instr :=
  match pts with
  | p1 :: (p2 :: _) as r =>
      let e' := (e + eDelta sett p1 p2)%num in
      G 1 (axis_words p2 p1 ++ [("E", V e')])%list :: i_segs sett e' r
  | _ => []
  end.

Fixpoint e_segs (sett : gsett) (e : num) (pts : path) : num :=
  match pts with
  | p1 :: (p2 :: _) as r => e_segs sett (e + eDelta sett p1 p2)%num r
  | _ => e
  end.

Definition half : num := nlit 5 10.

Definition i_retract (sett : gsett) : list instr :=
  if Retraction sett
  then [G 1 [("F", VZ (RetractionSpeed sett)); ("E", V (- RetractionDistance sett)%num)]]
  else [].

Definition i_path (sett : gsett) (s : gstate) (p0 : point) (p : path) : list instr :=
  ([G 0 [("Z", V (pz (pos s) + half)%num)]] ++ i_retract sett ++
   [G 0 [("X", V (px p0 + n0)%num); ("Y", V (py p0 + n0)%num); ("Z", V (pz p0 + half)%num)];
    G 0 [("Z", V (pz p0 + n0)%num)]] ++
   i_segs sett (eOff s) (p0 :: p))%list.

Definition s_path (sett : gsett) (s : gstate) (p0 : point) (p : path) : gstate :=
  set_pos (set_eOff s (e_segs sett (eOff s) (p0 :: p))) (last (p0 :: p) p0).

Fixpoint i_paths (sett : gsett) (s : gstate) (ps : list path) : res (gstate * list instr) :=
  match ps with
  | [] => Ok (s, [])
  | [] :: _ => Panic
  | (p0 :: p) :: r =>
      '(s2, is) <- i_paths sett (s_path sett s p0 p) r ;;
      Ok (s2, i_path sett s p0 p ++ is)%list
  end.

(** the configured speed *)
Definition speed_for (sett : gsett) (layer : Z) (wall : bool) : Z :=
  if (layer =? 0)%Z then PrintSpeedLayer1 sett
  else if wall then PrintSpeedWall sett else PrintSpeed sett.

Definition i_speed (sett : gsett) (s : gstate) : list instr :=
  let n := speed_for sett (layerIndex s) (isWall s) in
  if (n =? feedrate s)%Z then [] else [G 0 [("F", VZ n)]].
Definition s_speed (sett : gsett) (s : gstate) : gstate :=
  let n := speed_for sett (layerIndex s) (isWall s) in
  if (n =? feedrate s)%Z then s else set_feedrate s n.

Definition i_group (comment : string) (sett : gsett) (s : gstate) (ps : list path)
  : res (gstate * list instr) :=
  '(s2, is) <- i_paths sett (s_speed sett s) ps ;;
  Ok (s2, Comment comment :: (i_speed sett s ++ is)%list).

Definition fan_for (sett : gsett) (layer : Z) : bool :=
  negb ((layer =? 0)%Z && FanOffLayer1 sett).

Definition i_fan (sett : gsett) (s : gstate) : list instr :=
  let f := fan_for sett (layerIndex s) in
  if Bool.eqb f (fan s) then [] else [M (if f then 106 else 107)].

Definition i_reset (s : gstate) : list instr :=
  if (nltb (nofZ 4000) (eOff s)) then [G 92 [("E", VZ 0)]] else [].
Definition s_reset (s : gstate) : gstate :=
  if (nltb (nofZ 4000) (eOff s)) then set_eOff s n0 else s.

Definition i_layer (sett : gsett) (s : gstate) (l : layer) : res (gstate * list instr) :=
  let s2 := set_isWall (set_fan s (fan_for sett (layerIndex s))) true in
  '(s3, o3) <- i_group "OUTER_PATHES" sett s2 (l_paths l) ;;
  '(s4, o4) <- i_group "MIDDLE_PATHES" sett s3 (l_middle l) ;;
  '(s5, o5) <- i_group "INNER_PATHES" sett s4 (oslice (l_inner l)) ;;
  '(s7, o7) <- i_group "FILL_PATHES" sett (set_isWall s5 false) (l_fill l) ;;
  let s8 := s_reset s7 in
  Ok (set_layerIndex s8 (layerIndex s8 + 1),
      Comment ("LAYER:" ++ itoa (layerIndex s)) :: (i_fan sett s ++ o3 ++ o4 ++ o5 ++ o7 ++ i_reset s7)%list).

Fixpoint i_layers (sett : gsett) (s : gstate) (ls : list layer) : res (gstate * list instr) :=
  match ls with
  | [] => Ok (s, [])
  | l :: r =>
      '(s1, o1) <- i_layer sett s l ;;
      '(s2, o2) <- i_layers sett s1 r ;;
      Ok (s2, o1 ++ o2)%list
  end.

(** bed motion with tool [t] from the remembered angle to [target] *)
Definition i_bed (t : Z) (from target : val) (e : num) : list instr :=
  [G 0 [("X", VZ 0); ("Y", VZ 0); ("Z", VZ 200)];
   T t;
   G 92 [("E", from)];
   G 1 [("F", VZ 300); ("E", target)];
   G 92 [("E", VZ 0)];
   T 0;
   G 92 [("E", V e)]].

Definition i_cmd (c : command) (s : gstate) (sett : gsett) : res (gstate * list instr) :=
  match c with
  | InclineXBack => Ok (set_t2 s n0, i_bed 2 (V (st_t2 s)) (VZ 0) (eOff s))
  | InclineX => Ok (set_t2 s (nofZ 60), i_bed 2 (V (st_t2 s)) (VZ 60) (eOff s))
  | RotateXZ ax az => Ok (s, [G 62 [("X", V ax); ("Z", V az)]])
  | RotateZ a => Ok (set_t1 s a, i_bed 1 (V (st_t1 s)) (V a) (eOff s))
  | LayersMoving ls => i_layers sett s ls
  end.

Fixpoint i_cmds (sett : gsett) (s : gstate) (cs : list command) : res (gstate * list instr) :=
  match cs with
  | [] => Ok (s, [])
  | c :: r =>
      '(s1, o1) <- i_cmd c s sett ;;
      '(s2, o2) <- i_cmds sett s1 r ;;
      Ok (s2, o1 ++ o2)%list
  end.

(** the intended instructions of a Gcode *)
Definition intended (g : gcode) : res (list instr) :=
  '(_, is) <- i_cmds (g_sett g) newState (g_cmds g) ;; Ok is.

End Instr.
