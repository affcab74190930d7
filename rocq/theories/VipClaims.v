(** * Vocabulary of the statements about walls, cut planes and the five-axis slicers *)
From Coq Require Import String ZArith Reals List Bool.
From Verif Require Import Arith ArithR Prim Path Helpers Gcode GcodeSpec Slicer Fill Vip GeomSpec.
Import ListNotations.
Close Scope R_scope.
Close Scope Z_scope.
Close Scope num_scope.
Close Scope string_scope.

Section Any.
Context {A : Arith}.

(** ** Walls *)

(** [out]: up to [n] walls, each made from the one before, the first from [p]; fewer only if
    no further wall can be made *)
Inductive walls (next : path -> option path) : nat -> path -> list path -> Prop :=
| walls_enough p : walls next 0 p []
| walls_none n p : next p = None -> walls next n p []
| walls_more n p q out : next p = Some q -> walls next n q out -> walls next (S n) p (q :: out).

(** the walls [offs] of the contours of [l] were added to it: the innermost of every contour
    to the inner paths, the others to the middle paths *)
Definition walls_added (l l' : layer) (offs : list (list path)) : Prop :=
  l_order l' = l_order l /\ l_norm l' = l_norm l /\ l_paths l' = l_paths l /\
  l_middle l' = l_middle l ++ flat_map (fun o => removelast o) offs /\
  oslice (l_inner l') = oslice (l_inner l) ++ flat_map (fun o => match o with [] => [] | p :: _ => [last o p] end) offs.

(** all but the paths of less than two points *)
Definition proper (ps : list path) : list path := filter (fun p : path => 2 <=? length p) ps.

(** ** Position of the bed while layers are printed *)

(** rotation and tilt (degrees) at every printing command, starting at [r] and [t] *)
Fixpoint print_beds (r : num) (t : Z) (cs : list command) : list (num * Z) :=
  match cs with
  | [] => []
  | LayersMoving _ :: cs => (r, t) :: print_beds r t cs
  | RotateZ a :: cs => print_beds a t cs
  | InclineX :: cs => print_beds r 60 cs
  | InclineXBack :: cs => print_beds r 0 cs
  | RotateXZ _ _ :: cs => print_beds r t cs
  end.
(** the layers of every printing command *)
Fixpoint printed (cs : list command) : list (list layer) :=
  match cs with
  | [] => []
  | LayersMoving ls :: cs => ls :: printed cs
  | _ :: cs => printed cs
  end.

(** the parts of a mesh cut by planes, the last plane first: the part below all planes, then
    what is above each plane and below the following ones *)
Inductive parted (U : env) : mesh -> list aplane -> list mesh -> Prop :=
| parted_nil m : parted U m [] [m]
| parted_snoc m ps p up down parts :
    cutMesh (u_ends U) m (ap_plane p) = Ok (up, down) ->
    parted U down ps parts ->
    parted U m (ps ++ [p]) (parts ++ [up]).

(** turning the bed by [a] degrees about the vertical line through [c] *)
Definition turned (c : point) (a : num) (m : mesh) : mesh := m_rotate m (rotationAroundZ a) c.
(** tilting it by 60 degrees *)
Definition inclined (c : point) (b : bool) (m : mesh) : mesh :=
  if b then m_rotate m (rotationAroundX (nopp (nofZ 60))) c else m.

(** [ls] are layers sliced from [m] and filled *)
Definition layers_of (U : env) (s : settings) (fp ff : list plane) (m : mesh) (ls : list layer) : Prop :=
  exists add, sliceByVector U m axisZ s = Ok add /\ prepareLayers U add s fp ff = Ok ls.

(** [b] is [a] with a skirt in its first layer *)
Definition with_skirt (s : settings) (a b : list layer) : Prop :=
  match a with
  | [] => b = []
  | l :: r => b = skirtPathes l (s_skirtLineCount s) (LineWidth (s_g s)) :: r
  end.

(** the commands of SliceDefault2, with the bed turned or not: prints, each followed by a
    turn and tilt or by the way back, the last by nothing *)
Inductive alternates : bool -> list command -> Prop :=
| alt_end b : alternates b []
| alt_last b ls : alternates b [LayersMoving ls]
| alt_tilt ls a cs : alternates true cs -> alternates false (LayersMoving ls :: RotateZ a :: InclineX :: cs)
| alt_back ls cs : alternates false cs -> alternates true (LayersMoving ls :: InclineXBack :: RotateZ n0 :: cs).
End Any.
