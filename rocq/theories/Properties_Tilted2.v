(** * C117 in float64: a layer that is not level *)
From Coq Require Import String ZArith List Bool.
From Flocq Require Import IEEE754.BinarySingleNaN.
From Verif Require Import Arith ArithF64 Prim Path Gcode Slicer SlicerClaims Vip Examples_Vip.
Import ListNotations.
Close Scope string_scope.
Local Existing Instance A1.

(** hundredths of a millimetre, scaled *)
Definition at_ (k : Z) (z : Z) (p : Z * Z) : @point A1 := P3 (A := A1) (f64_lit (fst p * k) 100) (f64_lit (snd p * k) 100) (f64_ofZ z).
Definition low : list (Z * Z) := [(200,0);(125,156);(-45,195);(-180,87);(-180,-87);(-45,-195);(125,-156)]%Z.
Definition high : list (Z * Z) := [(180,87);(45,195);(-125,156);(-200,0);(-125,-156);(45,-195);(180,-87)]%Z.
Definition turn1 (l : list (Z * Z)) := tl l ++ [hd (0, 0)%Z l].
(** the side of a drum: heptagons below and above, turned against each other *)
Definition drum (k z0 z1 : Z) : @mesh A1 :=
  flat_map (fun abc => let '(a, b, c) := abc in
    [newTriangle (at_ k z0 a) (at_ k z0 b) (at_ k z1 c)]) (combine (combine low (turn1 low)) high) ++
  flat_map (fun abc => let '(a, b, c) := abc in
    [newTriangle (at_ k z1 a) (at_ k z0 c) (at_ k z1 b)]) (combine (combine high (turn1 high)) (turn1 low)).
(** a drum of 2 mm, and on it one of 4 mm *)
Definition spool : @mesh A1 := drum 1 0 2 ++ drum 2 2 4.
Definition s3 : @settings A1 :=
  Settings (GSett (nlit 175 100) n1 (nlit 2 10) (nlit 4 10) false 3000 1500 2000 false 0 n0)
    EmptyString (nlit 1 100) (f64_ofZ 2) n0 0 60 200 0 (pt 0 0 0) EmptyString EmptyString n0 (V3 n0 n0 n1) false n0 0 0 0.
Definition after (g : @gcode A1) : list (@layer A1) :=
  match g_cmds g with [LayersMoving _; InclineX; LayersMoving l; InclineXBack] => l | _ => [] end.
Definition steep_path (p : @path A1) : bool :=
  existsb (fun q => existsb (fun q' => nltb (nofZ 1) (nsub (pz q) (pz q'))) p) p.
Definition steep (r : res (@gcode A1)) : bool :=
  match r with Ok g => existsb (fun l => existsb steep_path (l_paths l)) (after g) | _ => false end.
Definition parse1 : list Z -> @num A1 := fun _ => n1.
Lemma steep_ok r : steep r = true -> exists g before after l p q q', r = Ok g /\
  g_cmds g = [LayersMoving before; InclineX; LayersMoving after; InclineXBack] /\
  In l after /\ In p (l_paths l) /\ In q p /\ In q' p /\ nltb (nofZ 1) (nsub (pz q) (pz q')) = true.
Proof.
  intros H. unfold steep in H. destruct r as [g| |]; try discriminate. exists g.
  unfold after in H. destruct (g_cmds g) as [|[| | | |b] [|[| | | |] [|[| | | |a] [|[| | | |] [|]]]]]; try discriminate.
  apply existsb_exists in H. destruct H as (l & Hl & H). apply existsb_exists in H. destruct H as (p & Hp & H).
  unfold steep_path in H. apply existsb_exists in H. destruct H as (q & Hq & H). apply existsb_exists in H. destruct H as (q' & Hq' & H).
  exists b, a, l, p, q, q'. repeat split; assumption.
Qed.
Lemma spool_steep : steep (Vip.slice 10 env0 parse1 None spool s3) = true.
Proof. vm_cast_no_check (eq_refl true). Qed.

(** no planes file, float64: with the bed tilted two vertices of one contour lie more than 1 mm
    apart in height *)
Theorem C117_level_refuted : exists (m : @mesh A1) s (parse : list Z -> @num A1) g before after l p q q',
  Vip.slice 10 env0 parse None m s = Ok g /\
  g_cmds g = [LayersMoving before; InclineX; LayersMoving after; InclineXBack] /\
  In l after /\ In p (l_paths l) /\ In q p /\ In q' p /\
  nltb (nofZ 1) (nsub (pz q) (pz q')) = true.
Proof.
  destruct (steep_ok _ spool_steep) as (g & H). exists spool, s3, parse1, g. exact H.
Qed.

Print Assumptions C117_level_refuted.
