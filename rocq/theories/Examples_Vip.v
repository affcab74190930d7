(** * Runs of the slicers of package vip *)
(** Concrete cases for the hypotheses of C51, C52, C71 and C72: the slicers finish with a
    program on small models. Sine, cosine and arc cosine, which are parameters of the
    theorems, are here polynomials close to them. *)
From Coq Require Import String ZArith List Bool.
From Flocq Require Import IEEE754.BinarySingleNaN.
From Verif Require Import Arith ArithF64 Prim Path Gcode GcodeSpec GcodeInstr GcodeClaims Slicer SlicerClaims Vip VipClaims.
Import ListNotations.
Close Scope string_scope.

Definition poly (cs : list f64) (x : f64) : f64 := fold_right (fun c acc => f64_add c (f64_mul x acc)) (B754_zero false) cs.
Notation fin s m e := (@B754_finite 53 1024 s m e eq_refl).
Definition fone : f64 := fin false 4503599627370496 (-52).
(** 2 pi, pi, pi / 2 *)
Definition twopi : f64 := fin false 7074237752028440 (-50).
Definition onepi : f64 := fin false 7074237752028440 (-51).
Definition halfpi : f64 := fin false 7074237752028440 (-52).
Definition red (x : f64) : f64 := f64_sub x (f64_mul (f64_ofZ (f64_toZ (f64_div x twopi))) twopi).
(** 1, -1/3!, 1/5!, ..., 1/21! *)
Definition sin2 (x : f64) : f64 :=
  let y := red x in
  f64_mul y (poly [fone; fin true 6004799503160661 (-55); fin false 4803839602528529 (-59); fin true 7320136537186330 (-65);
                   fin false 6506788033054516 (-71); fin true 7571535165736164 (-78); fin false 6212541674450185 (-85);
                   fin true 7573384136472607 (-93); fin false 7127890951974218 (-101); fin true 5335497320776023 (-109);
                   fin false 6504225305326962 (-118)] (f64_mul y y)).
Definition cos2 (x : f64) : f64 := sin2 (f64_add x halfpi).
Definition acos2 (x : f64) : f64 :=
  let pos y := f64_mul (f64_sqrt (f64_sub fone y))
                 (poly [fin false 7073933638380106 (-52); fin true 7642226662399331 (-55); fin false 5351068990850566 (-56);
                        fin true 5398353184058255 (-58)] y) in
  if Bltb x (B754_zero false) then f64_sub onepi (pos (f64_sub (B754_zero false) x)) else pos x.
Definition elem1 : elem := {| e_sin := sin2; e_cos := cos2; e_acos := acos2 |}.
Definition A1 := ArithF64 elem1.
Local Existing Instance A1.

(** tenths of a millimetre *)
Definition pt (x y z : Z) : @point A1 := P3 (A := A1) (f64_lit x 10) (f64_lit y 10) (f64_lit z 10).
Definition box (x0 x1 y0 y1 z0 z1 : Z) : @mesh A1 :=
  let q a b c d := [newTriangle a b c; newTriangle a c d] in
  q (pt x0 y0 z0) (pt x0 y1 z0) (pt x1 y1 z0) (pt x1 y0 z0) ++
  q (pt x0 y0 z1) (pt x1 y0 z1) (pt x1 y1 z1) (pt x0 y1 z1) ++
  q (pt x0 y0 z0) (pt x1 y0 z0) (pt x1 y0 z1) (pt x0 y0 z1) ++
  q (pt x1 y1 z0) (pt x0 y1 z0) (pt x0 y1 z1) (pt x1 y1 z1) ++
  q (pt x0 y1 z0) (pt x0 y0 z0) (pt x0 y0 z1) (pt x0 y1 z1) ++
  q (pt x1 y0 z0) (pt x1 y1 z0) (pt x1 y1 z1) (pt x1 y0 z1).
(** layers of h mm *)
Definition sh (h : f64) : @settings A1 :=
  Settings (GSett (nlit 175 100) n1 (nlit 2 10) (nlit 4 10) false 3000 1500 2000 false 0 n0)
    EmptyString (nlit 1 100) h (nlit 8 10) 0 60 200 0 (pt 0 0 0) EmptyString EmptyString n0 (V3 n0 n0 n1) false n0 0 0 0.
Definition s1 := sh fone.
Definition s2 := sh (f64_ofZ 2).

Definition kind (c : @command A1) : string :=
  match c with
  | LayersMoving _ => "layers" | RotateZ _ => "rotate" | InclineX => "tilt" | InclineXBack => "back" | RotateXZ _ _ => "rotate both"
  end%string.
(** the commands of a run, whether their angles can be printed, and whether there is a text *)
Definition summary (r : res (@gcode A1)) : list string * bool * bool :=
  match r with
  | Ok g => (map kind (g_cmds g),
             forallb (fun c => match c with RotateZ a => match V a with VFin _ => true | _ => false end | _ => true end) (g_cmds g),
             match toOutput g with Ok _ => true | _ => false end)
  | _ => ([], false, false)
  end.
Lemma summary_ok r ks : summary r = (ks, true, true) ->
  ks <> [] -> exists g t, r = Ok g /\ map kind (g_cmds g) = ks /\ toOutput g = Ok t /\
    Forall (fun c : @command A1 => match c with RotateZ a => exists z, V a = VFin z | _ => True end) (g_cmds g).
Proof.
  unfold summary. intros H N. destruct r as [g| |]; [|congruence|congruence].
  destruct (toOutput g) as [t| |] eqn:T; [|congruence|congruence]. exists g, t. injection H as H1 H2.
  split; [reflexivity|]. split; [exact H1|]. split; [exact T|]. apply Forall_forall. intros c Hc.
  rewrite forallb_forall in H2. specialize (H2 c Hc). destruct c; try exact I. destruct (V _); try discriminate. eauto.
Qed.
Definition layers_of s m := match sliceByVector (A := A1) env0 m axisZ s with Ok l => l | _ => [] end.
Definition lay := layers_of s1.
Definition lay2 := layers_of s2.

(** a post with a wide board on it: SliceRotation finds the overhang *)
Definition mushroom := box 0 20 0 20 0 20 ++ box (-20) 40 (-20) 40 20 40.
Example ex_rotation : summary (sliceRotation env0 mushroom s2 (lay2 mushroom)) =
  (["layers"; "tilt"; "layers"; "back"]%string, true, true).
Proof. match goal with |- _ = ?r => vm_cast_no_check (@eq_refl _ r) end. Qed.

(** two legs that jump towards each other *)
Definition legs := box 0 20 0 20 0 20 ++ box 60 80 0 20 0 20 ++ box 18 38 0 20 20 40 ++ box 42 62 0 20 20 40.
Example ex_bridge : summary (sliceBridge env0 legs s2 (lay2 legs)) =
  (["layers"; "layers"; "rotate"; "tilt"; "layers"; "back"; "rotate"]%string, true, true).
Proof. match goal with |- _ = ?r => vm_cast_no_check (@eq_refl _ r) end. Qed.

(** a post with a board to one side: one cut, and back *)
Definition gallows := box 0 20 0 20 0 20 ++ box 0 50 0 20 20 40.
Example ex_default : summary (sliceDefault2 4 env0 gallows s2 (lay2 gallows)) =
  (["layers"; "rotate"; "tilt"; "layers"; "back"; "rotate"]%string, true, true).
Proof. match goal with |- _ = ?r => vm_cast_no_check (@eq_refl _ r) end. Qed.

(** a tilted and a level plane *)
Definition pillar := box 0 20 0 20 0 40.
Definition cuts : list (@aplane A1) :=
  [AP (Pl (pt 10 10 15) (read_normal true (f64_ofZ 30))) true (f64_ofZ 30); AP (Pl (pt 0 0 30) axisZ) false (f64_ofZ 0)].
Example ex_planes : summary (sliceByPlanes env0 pillar s1 cuts) =
  (["layers"; "rotate"; "tilt"; "layers"; "rotate"; "back"; "layers"]%string, true, true).
Proof. match goal with |- _ = ?r => vm_cast_no_check (@eq_refl _ r) end. Qed.

(** a leaning pillar *)
Definition leaning : @mesh A1 :=
  map (fun t => let f p := P3 (A := A1) (f64_add (px p) (f64_div (pz p) (f64_ofZ 2))) (py p) (pz p) in
                newTriangle (f (t1 t)) (f (t2 t)) (f (t3 t))) pillar.
Example ex_profile : (let '(k, _, t) := summary (sliceByProfile 100 env0 leaning s1) in (k, t)) =
  (["rotate both"; "layers"]%string, true).
Proof. match goal with |- _ = ?r => vm_cast_no_check (@eq_refl _ r) end. Qed.
