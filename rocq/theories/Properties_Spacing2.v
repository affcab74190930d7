(** * C120 After the tilt the fill lines are farther apart than asked for: a run in float64 *)
From Coq Require Import String ZArith List Bool.
From Flocq Require Import IEEE754.BinarySingleNaN.
From Verif Require Import Arith ArithF64 Prim Path Gcode Slicer SlicerClaims Fill Vip Examples_Vip.
Import ListNotations.
Open Scope Z_scope.
Close Scope num_scope.

(** lines of 0.4 mm, all layers solid *)
Definition s4 : @settings A1 :=
  Settings (A := A1) (GSett (A := A1) (nlit 175 100) n1 (nlit 2 10) (nlit 4 10) false 3000 1500 2000 false 0 n0)
    EmptyString (nlit 1 100) (f64_ofZ 2) n0 100 60 200 0 (pt 0 0 0) EmptyString "Lines"%string n0 (V3 n0 n0 n1) false n0 3 3 0.
(** the two lines run along X and are more than 0.76 mm apart *)
Definition far (f f' : @path A1) : bool :=
  forallb (fun q => forallb (fun q' => nltb (nlit 76 100) (nabs (nsub (py q) (py q')))) f') f.
Fixpoint all_far (fs : list (@path A1)) : bool :=
  match fs with [] => true | f :: r => forallb (far f) r && all_far r end.
Fixpoint pairwise {T} (P : T -> T -> Prop) (l : list T) : Prop :=
  match l with [] => True | f :: r => Forall (P f) r /\ pairwise P r end.
(** at least three lines, in a layer that is to be solid *)
Definition sparse (r : res (@gcode A1)) : bool :=
  match r with
  | Ok g => match g_cmds g with
            | LayersMoving _ :: RotateZ _ :: InclineX :: LayersMoving (l :: _) :: _ => (3 <=? length (l_fill l))%nat && all_far (l_fill l)
            | _ => false
            end
  | _ => false
  end.
Lemma all_far_ok fs : all_far fs = true ->
  pairwise (fun f f' => forall q q', In q f -> In q' f' -> nltb (nlit 76 100) (nabs (nsub (py q) (py q'))) = true) fs.
Proof.
  induction fs as [|f r IH]; [intros _; exact I|]. cbn [all_far pairwise]. intros H. apply andb_true_iff in H. destruct H as [H1 H2]. split; [|auto].
  apply Forall_forall. intros f' Hf q q' Hq Hq'. rewrite forallb_forall in H1. specialize (H1 f' Hf). unfold far in H1. rewrite forallb_forall in H1.
  specialize (H1 q Hq). rewrite forallb_forall in H1. exact (H1 q' Hq').
Qed.
Lemma sparse_ok r : sparse r = true -> exists g before a l ls rest, r = Ok g /\
  g_cmds g = LayersMoving before :: RotateZ a :: InclineX :: LayersMoving (l :: ls) :: rest /\
  (3 <= length (l_fill l))%nat /\
  pairwise (fun f f' => forall q q', In q f -> In q' f' -> nltb (nlit 76 100) (nabs (nsub (py q) (py q'))) = true) (l_fill l).
Proof.
  intros H. unfold sparse in H. destruct r as [g| |]; try discriminate. exists g.
  destruct (g_cmds g) as [|[| | | |b] [|[| |a| |] [|[| | | |] [|[| | | |[|l ls]] rest]]]] eqn:E; try discriminate;
  apply andb_true_iff in H; destruct H as [H1 H2]; apply Nat.leb_le in H1; apply all_far_ok in H2; eauto 12.
Qed.
Lemma gallows_sparse : sparse (sliceDefault2 4 env0 gallows s4 (lay2 gallows)) = true.
Proof. vm_cast_no_check (eq_refl true). Qed.

(** A post with a board along X, all layers to be solid with lines of 0.4 mm: in the first layer
    after the tilt all lines are more than 0.76 mm apart. *)
Theorem C120_solid_refuted : exists (m : @mesh A1) s layers g before a l ls rest,
  s_fillingType s = "Lines"%string /\ s_bottomLayers s = 3 /\ LineWidth (s_g s) = nlit 4 10 /\
  layers = lay2 m /\ sliceDefault2 4 env0 m s layers = Ok g /\
  g_cmds g = LayersMoving before :: RotateZ a :: InclineX :: LayersMoving (l :: ls) :: rest /\
  (3 <= length (l_fill l))%nat /\
  pairwise (fun f f' => forall q q', In q f -> In q' f' -> nltb (nlit 76 100) (nabs (nsub (py q) (py q'))) = true) (l_fill l).
Proof.
  destruct (sparse_ok _ gallows_sparse) as (g & before & a & l & ls & rest & H).
  exists gallows, s4, (lay2 gallows), g, before, a, l, ls, rest. do 4 (split; [reflexivity|]). exact H.
Qed.

Print Assumptions C120_solid_refuted.
