(** * Package slicers: slicing a mesh into layers *)
From Coq Require Import ZArith NArith String List Bool PeanoNat.
From Verif Require Import Arith Prim Path Helpers Gcode.
Import ListNotations.
Close Scope string_scope.
Open Scope num_scope.

Section Slicer.
Context {A : Arith}.

(** slicers/settings.go:10-30. The pointer GcodeSettings is shared but never
    written by package slicers, so it is a value here. *)
Record settings := Settings {
  s_g : gsett;
  s_dateTime : string;
  s_epsilon : num;
  s_layerHeight : num;
  s_wallThickness : num;
  s_fillDensity : Z;
  s_bedTemperature : Z;
  s_extruderTemperature : Z;
  s_layerCount : Z;
  s_rotationCenter : point;
  s_planesFile : string;
  s_fillingType : string;
  s_colorizedAngle : num;
  s_unitVector : vector;
  s_supportsOn : bool;
  s_supportOffset : num;
  s_topLayers : Z;
  s_bottomLayers : Z;
  s_skirtLineCount : Z
}.

(** What Go leaves open, one field per place: the results of sort.Slice (ties,
    comparators that are not orders) and the order in which the goroutines
    deliver their layers. *)
Record env := Env {
  u_asc : vector -> list triangle -> list triangle;   (* slice_by_vector.go:39 *)
  u_desc : vector -> list triangle -> list triangle;  (* slice_by_vector.go:55 *)
  u_ends : list sortp -> list sortp;                  (* path.go:128 *)
  u_arrive : list layer -> list layer;                (* slice_by_vector.go:121-123 *)
  u_byX : list point -> list point;                   (* fill_layer.go:227 *)
  u_byY : list point -> list point                    (* fill_layer.go:231 *)
}.

(** slicers/slice_by_vector.go:141-145 *)
Record job := Job { j_order : Z; j_plane : plane; j_triangles : list triangle }.

(** slicers/slice_by_vector.go:106-110: the triangles whose MinZ is reached, up to
    the first one that is not, and the rest *)
Fixpoint reached (Z : vector) (z : num) (ts : list triangle) : list triangle * list triangle :=
  match ts with
  | t :: r => if t_minZ t Z <=? z then let '(a, b) := reached Z z r in (t :: a, b) else ([], ts)
  | [] => ([], [])
  end.

(** slicers/slice_by_vector.go:94-116: the main loop; [k] iterations remain. The
    slice newActive shares the array of active, but every job gets a copy (112-113). *)
Fixpoint sweep (Z sh : vector) (k : nat) (i : BinInt.Z) (curP : point) (active todo : list triangle) : list job :=
  match k with
  | O => []
  | S k' =>
      let z := dot (p2v curP) Z in
      let newActive := filter (fun t => z <=? t_maxZ t Z) active in
      let '(new, rest) := reached Z z todo in
      let act := newActive ++ new in
      Job i (Pl curP Z) act :: sweep Z sh k' (i + 1)%Z (pshift curP sh) act rest
  end.

(** slicers/slice_by_vector.go:147-160 slicingWorker: the layer of one job *)
Definition slicingWorker (U : env) (j : job) : res layer :=
  let paths := flat_map (fun t => match intersectTriangle (j_plane j) t with
                                  | Some l => [[lp1 l; lp2 l]]
                                  | None => []
                                  end) (j_triangles j) in
  joined <- joinPaths3AndMinimize (u_ends U) paths ;;
  Ok (Layer_ (j_order j) (pl_n (j_plane j)) joined [] None []).

(** slicers/slice_by_vector.go:53-89: the triangles of the supports *)
Definition supportTriangles (U : env) (m : mesh) (Z : vector) (minz : num) (s : settings) : res (list triangle) :=
  let temp := u_desc U Z m in
  let pl := Pl (v2p (vscale Z minz)) Z in
  let vn := s_unitVector s in
  let col := filterTrianglesByColor m (s_colorizedAngle s) vn in
  let col := if negb (s_supportOffset s =? n0)
             then map (fun t => t_shift t (vscale vn (- s_supportOffset s))) col else col in
  let col_lines := makeUndoubledLines col in
  sup_lines <- makeSupportLines col_lines pl ;;
  let pairs := combine sup_lines col_lines in
  Ok (flat_map (fun '(sl, cl) =>
        let Tr1 := newTriangle (lp1 sl) (lp1 cl) (lp2 cl) in
        let Tr2 := newTriangle (lp1 sl) (lp2 sl) (lp2 cl) in
        (match intersectTriangles Tr1 temp with [] => [Tr1] | _ => [] end) ++
        (match intersectTriangles Tr2 temp with [] => [Tr2] | _ => [] end)) pairs).

(** slicers/slice_by_vector.go:126-128. The orders are pairwise different, so every
    sorting algorithm gives this result. *)
Fixpoint insert_layer (l : layer) (ls : list layer) : list layer :=
  match ls with
  | [] => [l]
  | x :: r => if (l_order l <? l_order x)%Z then l :: ls else x :: insert_layer l r
  end.
Definition sort_layers (ls : list layer) : list layer := fold_right insert_layer [] ls.

(** slicers/slice_by_vector.go:130-136 *)
Definition trim_layers (ls : list layer) : res (list layer) :=
  match ls with
  | [] => Panic
  | l :: r =>
      let ls1 := match l_paths l with [] => r | _ => ls end in
      x <- idx_last ls1 ;;
      Ok (match l_paths x with [] => removelast ls1 | _ => ls1 end)
  end.

(** slicers/slice_by_vector.go:36-118: number of layers and jobs. [make(chan job, n)]
    panics for negative n (a huge n exhausts the memory, which is not modelled). *)
Definition layer_number (m : mesh) (Z : vector) (s : settings) : BinInt.Z :=
  let '(minz, maxz) := m_minMaxZ m Z in ntoZ (nceil ((maxz - minz) / s_layerHeight s)).
Definition slicing_jobs (U : env) (m : mesh) (Z : vector) (s : settings) : res (list job) :=
  let Z := normalize Z in
  let triangles := u_asc U Z m in
  let '(minz, maxz) := m_minMaxZ m Z in
  let n := layer_number m Z s in
  let sh := vscale (vscale Z (maxz - minz)) (n1 / nofZ n) in
  if (n <? 0)%Z then Panic else
  sup <- (if s_supportsOn s then supportTriangles U m Z minz s else Ok []) ;;
  let curP := pshift (v2p (vscale Z minz)) (vscale sh (nlit 5 10)) in
  Ok (sweep Z sh (Z.to_nat n) 0 curP [] (sup ++ triangles)).

(** slicers/slice_by_vector.go:25-139 SliceByVector. A nil mesh behaves like an
    empty one. *)
Definition sliceByVector (U : env) (m : mesh) (Z : vector) (s : settings) : res (list layer) :=
  match m with
  | [] => Ok []
  | _ =>
    jobs <- slicing_jobs U m Z s ;;
    results <- rmap (slicingWorker U) jobs ;;
    trim_layers (sort_layers (u_arrive U results))
  end.

End Slicer.
