(** * Vocabulary of the statements about generated G-code

    Statement predicates only; [V x] is the number written for x (StrF) and
    [VZ z] an integer, both as read back by the reader of [GcodeSpec]. *)
From Coq Require Import ZArith NArith String Ascii List Bool.
From Verif Require Import Arith Prim Gcode GcodeSpec GcodeInstr.
Import ListNotations.

Section Claims.
Context {A : Arith}.

(** layers of a command *)
Definition cmd_layers (c : command) : list layer :=
  match c with LayersMoving ls => ls | _ => [] end.

(** C02: fan state at print moves; M106 only when off, M107 only when on *)
Definition fan_ok (sett : gsett) (e : event) : Prop :=
  (is_print (ev_instr e) = true ->
     exists k, c_layer (ev_at e) = Some k /\
       m_fan (ev_after e) = (if (k =? 0)%N then negb (FanOffLayer1 sett) else true)) /\
  (forall ws, ev_instr e = Instr ("M"%char, VFin 106000) ws -> m_fan (ev_before e) = false) /\
  (forall ws, ev_instr e = Instr ("M"%char, VFin 107000) ws -> m_fan (ev_before e) = true).

(** C03: feedrate at print moves *)
Definition speed_ok (sett : gsett) (e : event) : Prop :=
  is_print (ev_instr e) = true ->
  exists k, c_layer (ev_at e) = Some k /\
    m_f (ev_after e) = VFin (1000 *
      (if (k =? 0)%N then PrintSpeedLayer1 sett
       else if (c_sect (ev_at e) =? "FILL_PATHES")%string then PrintSpeed sett
       else PrintSpeedWall sett)).

(** commands that print layers (or write G62) *)
Definition only_layers (c : command) : Prop :=
  match c with LayersMoving _ | RotateXZ _ _ => True | _ => False end.

(** feedrate [v] at print moves *)
Definition at_speed (v : Z) (e : event) : Prop :=
  is_print (ev_instr e) = true -> m_f (ev_after e) = VFin (1000 * v).

(** commands that move a bed axis *)
Definition moves_bed (c : command) : Prop :=
  match c with RotateZ _ | InclineX | InclineXBack => True | _ => False end.

(** without retraction any path, with retraction paths of two points or more *)
Definition retr_ok (sett : gsett) (p : path) : Prop := Retraction sett = false \/ 2 <= length p.

(** a condition on all the paths of a command *)
Definition cmd_paths (Q : path -> Prop) (c : command) : Prop :=
  match c with
  | LayersMoving ls => Forall (fun l => Forall Q (l_paths l ++ l_middle l ++ oslice (l_inner l) ++ l_fill l)%list) ls
  | _ => True
  end.

(** C07: the register at a layer marker is a written number not above 4000 *)
Definition marker_reg (e : event) : Prop :=
  layer_marker (ev_instr e) <> None ->
  exists x, m_e (ev_before e) = V x /\ (nofZ 4000 <? x)%num = false.

(** C07: G92 only sets a register above 4000 to 0 *)
Definition reset_reg (e : event) : Prop :=
  forall ws, ev_instr e = Instr ("G"%char, VFin 92000) ws ->
  (exists x, m_e (ev_before e) = V x /\ (nofZ 4000 <? x)%num = true) /\ m_e (ev_after e) = VFin 0.

(** a number *)
Definition vfin (v : val) : Prop := exists z, v = VFin z.

(** the angle is written as a number *)
Definition angle_ok (c : command) : Prop := match c with RotateZ a => vfin (V a) | _ => True end.

(** the last commanded rotation *)
Fixpoint last_rotation (a : num) (cs : list command) : num :=
  match cs with
  | [] => a
  | RotateZ x :: r => last_rotation x r
  | _ :: r => last_rotation a r
  end.

(** the last commanded tilt *)
Fixpoint last_tilt (a : Z) (cs : list command) : Z :=
  match cs with
  | [] => a
  | InclineX :: r => last_tilt 60 r
  | InclineXBack :: r => last_tilt 0 r
  | _ :: r => last_tilt a r
  end.

(** C15: G1 with F and E with tool 0 *)
Definition is_retraction (e : event) : Prop :=
  m_tool (ev_before e) = 0%Z /\
  match ev_instr e with
  | Instr c ws => is_cmd c "G" 1 && has "F" ws && has "E" ws = true
  | _ => False
  end.

(** C15: E becomes the negated retraction distance, whatever it was *)
Definition retr_abs (sett : gsett) (e : event) : Prop :=
  is_retraction e ->
  m_e (ev_after e) = V (- RetractionDistance sett)%num /\
  m_disp (ev_after e) 0 =
    vplus (m_disp (ev_before e) 0) (vsubt (V (- RetractionDistance sett)%num) (m_e (ev_before e))).
(** ** Moves of the head *)

(** a G0/G1 that moves the head or the filament *)
Definition is_move (i : instr) : bool :=
  match i with
  | Instr c ws => (is_cmd c "G" 0 || is_cmd c "G" 1) && (has "X" ws || has "Y" ws || has "Z" ws || has "E" ws)
  | Comment _ => false
  end.

(** where the head is after each move, and whether the move prints *)
Fixpoint head_trace (m : mach) (is : list instr) : list (val * val * val * bool) :=
  match is with
  | [] => []
  | i :: r =>
      let m' := exec m i in
      ((if is_move i then [(m_x m', m_y m', m_z m', is_print i)] else []) ++ head_trace m' r)%list
  end.

Definition at_pt (p : point) : val * val * val := (V (px p), V (py p), V (pz p)).
Definition above_pt (p : point) : val * val * val := (V (px p), V (py p), V (pz p + nlit 5 10)%num).

(** C10: what is expected for a list of paths if the head is over (hx, hy) and
    the previous path ended at height qz *)
Definition path_trace (hx hy : val) (qz : num) (p : path) : list (val * val * val * bool) :=
  match p with
  | [] => []
  | p0 :: r =>
      (hx, hy, V (qz + nlit 5 10)%num, false) ::
      (above_pt p0, false) :: (at_pt p0, false) :: map (fun q => (at_pt q, true)) r
  end.
Fixpoint paths_trace (hx hy : val) (qz : num) (ps : list path) : list (val * val * val * bool) :=
  match ps with
  | [] => []
  | p :: r =>
      (path_trace hx hy qz p ++
       match p with
       | [] => paths_trace hx hy qz r
       | p0 :: _ => let q := last p p0 in paths_trace (V (px q)) (V (py q)) (pz q) r
       end)%list
  end.

(** the paths of a layer, in the order they are printed *)
Definition layer_paths (l : layer) : list path :=
  (l_paths l ++ l_middle l ++ oslice (l_inner l) ++ l_fill l)%list.
Definition cmds_paths (cs : list command) : list path :=
  flat_map layer_paths (flat_map cmd_layers cs).

(** C09: on each axis the step is zero or at least 0.001 *)
Definition axis_step_ok (a b : num) : Prop := b = a \/ (nlit 1 1000 <=? nabs (b - a))%num = true.
Definition step_ok (p q : point) : Prop :=
  axis_step_ok (px p) (px q) /\ axis_step_ok (py p) (py q) /\ axis_step_ok (pz p) (pz q).
Fixpoint steps_fine (p : path) : Prop :=
  match p with
  | a :: (b :: _) as r => step_ok a b /\ steps_fine r
  | _ => True
  end.

(** C14: visits *)
Inductive visit := Approach (p : point) | PrintTo (p q : point).
Fixpoint prints_of (p : path) : list visit :=
  match p with
  | a :: (b :: _) as r => PrintTo a b :: prints_of r
  | _ => []
  end.
Definition visits (p : path) : list visit :=
  match p with [] => [] | p0 :: _ => Approach p0 :: prints_of p end.

Definition axis_arg (a b : num) : option val :=
  if (nlit 1 1000 <=? nabs (b - a))%num then Some (V b) else None.

(** the instruction performs the visit: a G0 above the first vertex, a G1 with
    the words of the axes that change by 0.001 or more *)
Definition performs (i : instr) (v : visit) : Prop :=
  match v with
  | Approach p =>
      i = Instr ("G"%char, VFin 0)
            [("X"%char, V (px p)); ("Y"%char, V (py p)); ("Z"%char, V (pz p + nlit 5 10)%num)]
  | PrintTo p q =>
      is_print i = true /\
      match i with
      | Instr c ws => arg "X" ws = axis_arg (px p) (px q) /\
                      arg "Y" ws = axis_arg (py p) (py q) /\
                      arg "Z" ws = axis_arg (pz p) (pz q)
      | Comment _ => False
      end
  end.

(** C10: nothing but print moves moves the filament *)
Definition no_extrusion (e : event) : Prop :=
  is_print (ev_instr e) = false -> m_disp (ev_after e) = m_disp (ev_before e).

(** C11: every word is a number; the E word of a print move is *)
Definition words_finite (i : instr) : Prop :=
  match i with Instr c ws => vfin (snd c) /\ Forall (fun w => vfin (snd w)) ws | Comment _ => True end.
Definition print_E_finite (i : instr) : Prop :=
  match i with
  | Instr c ws => is_print i = true -> forall v, arg "E" ws = Some v -> vfin v
  | Comment _ => True
  end.
(** the numbers a path gives rise to are written as numbers *)
Definition pt_finite (p : point) : Prop :=
  vfin (V (px p)) /\ vfin (V (py p)) /\ vfin (V (pz p)) /\ vfin (V (pz p + nlit 5 10)%num).
Definition angles_finite (c : command) : Prop :=
  match c with
  | RotateZ a => vfin (V a)
  | RotateXZ a b => vfin (V a) /\ vfin (V b)
  | _ => True
  end.

End Claims.
