(** * Properties C72, C88, C89: the bed angles of SliceByProfile *)
From Coq Require Import String Ascii ZArith NArith Reals List Bool PeanoNat Lia Lra Permutation.
From Flocq Require Import Core IEEE754.BinarySingleNaN.
From Verif Require Import Arith ArithR ArithF64 Prim Path Helpers Gcode GcodeSpec GcodeInstr GcodeClaims GcodeProofs GcodeProofs5 Slicer SlicerClaims
  Fill Vip VipReal VipMore HelperClaims HelperProofs GeomSpec ProfileProofs Examples_Vip.
Import ListNotations.
Close Scope R_scope. Close Scope num_scope. Close Scope string_scope. Close Scope Z_scope.

(** ** C72 The angles *)

(** The text has one instruction G62 for every segment of the simplified centre line, in order:
    X is the angle between the segment and the vertical, Z is 90 more than the angle between
    its horizontal part and the X axis; no other instruction is a G62. *)
Theorem C72_angles : forall (A : Arith) fuel U m (s : settings) g t,
  sliceByProfile fuel U m s = Ok g -> toOutput g = Ok t ->
  exists is layers centers line,
    read_gcode t = Some is /\
    sliceByVector U m axisZ s = Ok layers /\ calculateCenters layers = Ok centers /\ simplifyLine fuel centers (s_epsilon s) = Ok line /\
    filter is_turn is = map (fun '(a, b) =>
      let v := vectorTo a b in
      Instr ("G"%char, VFin 62000) [("X"%char, V (angle v axisZ)); ("Z"%char, V (nadd (angle (projectOnPlane v planeXY) axisX) (nofZ 90)))])
      (segs line).
Proof.
  intros A fuel U m s g t H O. unfold sliceByProfile in H. destruct (sliceByVector U m axisZ s) as [layers| |]; try discriminate. cbn [rbind] in H.
  destruct (calculateCenters layers) as [centers| |] eqn:EC; try discriminate. cbn [rbind] in H.
  destruct (simplifyLine fuel centers (s_epsilon s)) as [line| |] eqn:EL; try discriminate. cbn [rbind] in H.
  apply profile_loop_turns in H. destruct H as (cs & H1 & H2 & H3). cbn [newGcode g_cmds g_sett app] in *.
  destruct (out_reads g t O) as (s' & is & R & I). rewrite H1 in I.
  exists is, layers, centers, line. split; [exact R|]. split; [reflexivity|]. split; [exact EC|]. split; [exact EL|].
  rewrite (turns_cmds _ _ _ H3 _ _ _ I). apply map_ext. intros [a b]. reflexivity.
Qed.

(** ** C88 Where the segment points after the turns *)

(** Exactly: turned about Z and then about X by the angles of G62 a segment (with a horizontal
    part) stands upright if and only if it does not lean towards negative Y. *)
Theorem C88_upright_iff : forall p q : Rpoint,
  let v := vectorTo p q in
  (0 < vx v * vx v + vy v * vy v)%R ->
  vrotate (vrotate v (rotationAroundZ (A := ArithR) (nadd (angle (projectOnPlane v planeXY) axisX) (nofZ 90))))
    (rotationAroundX (A := ArithR) (angle v axisZ)) = rv 0 0 (sqrt (vx v * vx v + vy v * vy v + vz v * vz v)) <-> (0 <= vy v)%R.
Proof.
  intros p q v H. replace v with (rv (vx v) (vy v) (vz v)) by (unfold rv; destruct v; reflexivity).
  exact (turned (vx v) (vy v) (vz v) H).
Qed.

(** so the claim that every part is sliced along its segment is false *)
Theorem C88_along_refuted : exists p q : Rpoint,
  let v := vectorTo p q in
  (0 < vz v)%R /\ (0 < vx v * vx v + vy v * vy v)%R /\
  vrotate (vrotate v (rotationAroundZ (A := ArithR) (nadd (angle (projectOnPlane v planeXY) axisX) (nofZ 90))))
    (rotationAroundX (A := ArithR) (angle v axisZ)) <> rv 0 0 (sqrt (vx v * vx v + vy v * vy v + vz v * vz v)).
Proof.
  exists (rp 0 0 0), (rp 0 (-1) 1). intros v.
  assert (E : v = rv 0 (-1) 1) by (unfold v, vectorTo, rp; cbn [px py pz]; rcbn; apply v3_eq; ring).
  clearbody v. subst v. cbn [vx vy vz rv].
  assert (H : (0 < 0 * 0 + -1 * -1)%R) by lra. split; [lra|]. split; [exact H|].
  intros Q. apply (proj1 (turned 0 (-1) 1 H)) in Q. lra.
Qed.

(** ** C89 Upright models *)

Lemma simplify_incl {A : Arith} eps : forall fuel (ps out : list point), simplifyLine fuel ps eps = Ok out ->
  incl out ps /\ 2 <= length out.
Proof.
  induction fuel as [|f IH]; intros ps out; cbn [simplifyLine]; [discriminate|].
  destruct ps as [|p0 r]; [discriminate|]. destruct (far_scan _ _ _ _ _ _) as [k d].
  destruct (nltb eps d).
  - destruct (simplifyLine f (firstn (S k) (p0 :: r)) eps) as [r1| |] eqn:E1; cbn [rbind]; try discriminate.
    destruct (simplifyLine f (skipn k (p0 :: r)) eps) as [r2| |] eqn:E2; cbn [rbind]; try discriminate.
    intros [= <-]. apply IH in E1, E2. destruct E1 as [I1 L1], E2 as [I2 L2]. split; [|rewrite app_length; lia].
    intros x Hx. apply in_app_or in Hx. destruct Hx as [Hx|Hx].
    + assert (In x r1) as Hr.
      { destruct r1 as [|y r1 _] using rev_ind; [destruct Hx|]. rewrite removelast_last in Hx. apply in_or_app. now left. }
      apply I1 in Hr. rewrite <- (firstn_skipn (S k) (p0 :: r)). apply in_or_app. now left.
    + apply I2 in Hx. rewrite <- (firstn_skipn k (p0 :: r)). apply in_or_app. now right.
  - intros [= <-]. split; [|cbn; lia]. intros x [<-|[<-|[]]]; [now left|].
    assert (G : In (last (p0 :: r) p0) (p0 :: r)); [|exact G].
    destruct (exists_last (l := p0 :: r)) as (l' & x & E); [discriminate|].
    rewrite E, last_last. apply in_or_app. right. now left.
Qed.

Section F.
Variable E : elem.
Local Notation AE := (ArithF64 E).

(** If the centres of all layers are exactly above one another, nothing can be printed: no
    program with a layer comes out, and if the centre line is simplified to one segment (as for
    a straight model) SliceByProfile crashes. *)
Theorem C89_upright : nan_in (e_acos E) -> nan_in (e_sin E) -> nan_in (e_cos E) ->
  forall fuel (U : @env AE) (m : list (@triangle AE)) (s : @settings AE) layers centers (a : @point AE),
  legal U -> sliceByVector U m (@axisZ AE) s = Ok layers -> calculateCenters layers = Ok centers ->
  is_finite (@px AE a) = true -> is_finite (@py AE a) = true ->
  Forall (fun p => @px AE p = @px AE a /\ @py AE p = @py AE a) centers ->
  (forall g, sliceByProfile fuel U m s = Ok g -> layerCount g = 0) /\
  (forall p q, simplifyLine fuel centers (@s_epsilon AE s) = Ok [p; q] -> sliceByProfile fuel U m s = Panic).
Proof.
  intros HA HS HC fuel U m s layers centers a LU SL CC F1 F2 FC.
  assert (HU : forall l, Permutation l (u_ends U l)) by apply LU.
  assert (K : forall p q r, simplifyLine fuel centers (@s_epsilon AE s) = Ok (p :: q :: r) ->
    is_finite (@px AE p) = true /\ is_finite (@py AE p) = true /\ Forall (same_xy E p) (q :: r)).
  { intros p q r Q. apply simplify_incl in Q. destruct Q as [I _]. rewrite Forall_forall in FC.
    destruct (FC p) as [P1 P2]; [apply I; now left|]. split; [now rewrite P1|]. split; [now rewrite P2|].
    apply Forall_forall. intros x Hx. destruct (FC x) as [X1 X2]; [apply I; now right|]. split; congruence. }
  unfold sliceByProfile. rewrite SL. cbn [rbind]. rewrite CC. cbn [rbind]. split.
  - intros g. destruct (simplifyLine fuel centers (s_epsilon s)) as [line| |] eqn:Q; cbn [rbind]; try discriminate.
    destruct (simplify_incl _ _ _ _ Q) as [_ L]. destruct line as [|p [|q r]]; cbn [length] in L; try lia.
    destruct (K p q r eq_refl) as (K1 & K2 & K3).
    destruct (profile_nan E HA HS HC U s HU (q :: r) p m (newGcode (s_g s)) K1 K2 ltac:(discriminate) K3) as [->|(g' & -> & N)]; [discriminate|].
    intros [= <-]. rewrite N. reflexivity.
  - intros p q Q. rewrite Q. cbn [rbind]. destruct (K p q [] Q) as (K1 & K2 & K3). apply Forall_inv in K3. destruct K3 as [K3 K4].
    rewrite profile_cons. cbn [rbind].
    rewrite (heading_of_nan E HA p q K1 K2 K3 K4).
    rewrite slice_nan; [reflexivity| |].
    + destruct m as [|t0 m0]; [|discriminate]. exfalso. cbn [sliceByVector] in SL. injection SL as <-. cbn in CC. injection CC as <-.
      apply simplify_incl in Q. destruct Q as [I _]. exact (I p (or_introl eq_refl)).
    + unfold m_rotate. rewrite map_map. apply Forall_forall. intros t I. apply in_map_iff in I. destruct I as (u & <- & _).
      unfold t_rotate. cbn [t1 t2 t3 newTriangle]. split; [|split]; apply turned_nan; assumption.
Qed.
End F.

(** ** Examples *)

(** C72: for the leaning pillar of Examples_Vip.v the slicer finishes with a program (ex_profile) *)

(** C88: both kinds of segments *)
Example ex_segments : (0 < 0 * 0 + 1 * 1)%R /\ (0 <= 1)%R /\ (0 < 0 * 0 + -1 * -1)%R /\ ~ (0 <= -1)%R.
Proof. repeat split; lra. Qed.

(** C89: a square pillar, layers of 1 mm; all centres have x = y = 1 exactly *)
Example ex_nan : nan_in (e_acos elem1) /\ nan_in (e_sin elem1) /\ nan_in (e_cos elem1).
Proof. split; [|split]; reflexivity. Qed.
Definition one (x : f64) : bool := Beqb x (f64_ofZ 1).
Example ex_upright : match calculateCenters (lay pillar) with
  | Ok cs => (length cs, forallb (fun p : @point A1 => one (px p) && one (py p)) cs,
              match simplifyLine 100 cs (s_epsilon s1) with Ok [_; _] => true | _ => false end,
              match sliceByProfile 100 env0 pillar s1 with Panic => true | _ => false end)
  | _ => (0, false, false, false)
  end = (4, true, true, true).
Proof. vm_compute. reflexivity. Qed.

Print Assumptions C72_angles.
Print Assumptions C88_upright_iff.
Print Assumptions C88_along_refuted.
Print Assumptions C89_upright.
