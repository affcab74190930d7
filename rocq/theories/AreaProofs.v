(** * Winding, centroid (C59, C60) and MinimizeLines in exact arithmetic (C36) *)
From Coq Require Import ZArith Reals Lra Lia List Bool Psatz.
From Verif Require Import Arith ArithR Prim Path GeomSpec GeomProofs.
Import ListNotations.
Local Open Scope R_scope.
Close Scope num_scope.

Implicit Types p q : list Rpoint.

(** ** Sums over the sides of a contour *)
Lemma last_ind2 {T} (l : list T) a d e : last (a :: l) d = last (a :: l) e.
Proof. revert a. induction l as [|b l IH]; intros a; [reflexivity|]. cbn [last] in *. apply IH. Qed.

Lemma open_cons f (a b : Rpoint) p : open_sum f (a :: b :: p) = f a b + open_sum f (b :: p).
Proof. reflexivity. Qed.

Lemma open_app f p (a : Rpoint) q : open_sum f (p ++ a :: q) = open_sum f (p ++ [a]) + open_sum f (a :: q).
Proof.
  induction p as [|b p IH]; [cbn [List.app open_sum]; ring|].
  destruct p as [|c p]; [cbn [List.app]; rewrite !open_cons; cbn [open_sum]; ring|].
  change ((b :: c :: p) ++ a :: q) with (b :: c :: (p ++ a :: q)).
  change ((b :: c :: p) ++ [a]) with (b :: c :: (p ++ [a])).
  rewrite !open_cons. change (c :: p ++ a :: q) with ((c :: p) ++ a :: q). rewrite IH. cbn [List.app]. ring.
Qed.

Lemma cyc_closed f (a : Rpoint) p : cyc_sum f (a :: p) = open_sum f (a :: p ++ [a]).
Proof.
  unfold cyc_sum. change (a :: p ++ [a]) with ((a :: p) ++ [a]).
  revert a. assert (H : forall p (a d : Rpoint), open_sum f (a :: p) + f (last (a :: p) d) d = open_sum f ((a :: p) ++ [d])).
  { clear. induction p as [|b p IH]; intros a d; [cbn; ring|].
    cbn [List.app]. rewrite !open_cons. change (b :: p ++ [d]) with ((b :: p) ++ [d]). rewrite <- IH.
    change (last (a :: b :: p) d) with (last (b :: p) d). ring. }
  intros a. apply H.
Qed.

(** another start vertex *)
Lemma cyc_rot f p q : cyc_sum f (p ++ q) = cyc_sum f (q ++ p).
Proof.
  destruct p as [|a p]; [now rewrite app_nil_r|]. destruct q as [|b q]; [now rewrite app_nil_r|].
  cbn [List.app]. rewrite !cyc_closed.
  change (a :: (p ++ b :: q) ++ [a]) with ((a :: p ++ b :: q) ++ [a]).
  replace ((a :: p ++ b :: q) ++ [a]) with ((a :: p) ++ b :: (q ++ [a])) by (cbn; now rewrite <- app_assoc).
  replace (b :: (q ++ a :: p) ++ [b]) with ((b :: q) ++ a :: (p ++ [b])) by (cbn; now rewrite <- app_assoc).
  rewrite (open_app f (a :: p)), (open_app f (b :: q)). cbn [List.app]. ring.
Qed.

Lemma open_rev f p : open_sum f (rev p) = open_sum (fun a b => f b a) p.
Proof.
  induction p as [|a p IH]; [reflexivity|]. destruct p as [|b p]; [reflexivity|].
  rewrite open_cons, <- IH. cbn [rev]. rewrite <- app_assoc. cbn [List.app]. rewrite open_app. cbn [open_sum]. ring.
Qed.

Lemma cyc_rev f p : cyc_sum f (rev p) = cyc_sum (fun a b => f b a) p.
Proof.
  destruct p as [|a p]; [reflexivity|]. cbn [rev]. rewrite cyc_rot. cbn [List.app].
  rewrite !cyc_closed, <- (open_rev f (a :: p ++ [a])). cbn [rev]. rewrite rev_app_distr. reflexivity.
Qed.

Lemma open_ext f g p : (forall a b, f a b = g a b) -> open_sum f p = open_sum g p.
Proof. intros H. induction p as [|a [|b p] IH]; try reflexivity. rewrite !open_cons, IH, H. reflexivity. Qed.
Lemma cyc_ext f g p : (forall a b, f a b = g a b) -> cyc_sum f p = cyc_sum g p.
Proof. intros H. destruct p; [reflexivity|]. rewrite !cyc_closed. now apply open_ext. Qed.

Lemma open_lin f g k p : open_sum (fun a b => f a b + k * g a b) p = open_sum f p + k * open_sum g p.
Proof. induction p as [|a [|b p] IH]; [cbn; ring|cbn; ring|]. rewrite !open_cons, IH. ring. Qed.
Lemma cyc_lin f g k p : cyc_sum (fun a b => f a b + k * g a b) p = cyc_sum f p + k * cyc_sum g p.
Proof. destruct p; [cbn; ring|]. rewrite !cyc_closed. apply open_lin. Qed.

Lemma open_tele h (a : Rpoint) p : open_sum (fun a b => h b - h a) (a :: p) = h (last (a :: p) a) - h a.
Proof.
  revert a. induction p as [|b p IH]; intros a; [cbn; ring|].
  rewrite open_cons, IH. change (last (a :: b :: p) a) with (last (b :: p) a). rewrite (last_ind2 p b a b). ring.
Qed.
Lemma cyc_tele h p : cyc_sum (fun a b => h b - h a) p = 0.
Proof. destruct p as [|a p]; [reflexivity|]. unfold cyc_sum. rewrite open_tele. ring. Qed.

Lemma open_map f g p : open_sum f (map g p) = open_sum (fun a b => f (g a) (g b)) p.
Proof. induction p as [|a [|b p] IH]; try reflexivity. cbn [map] in *. rewrite !open_cons, IH. reflexivity. Qed.
Lemma cyc_map f g p : cyc_sum f (map g p) = cyc_sum (fun a b => f (g a) (g b)) p.
Proof.
  destruct p as [|a p]; [reflexivity|]. cbn [map]. rewrite !cyc_closed.
  rewrite <- (open_map f g (a :: p ++ [a])). cbn [map]. now rewrite map_app.
Qed.

(** ** IsWindingCW *)
Lemma wind_sum_open (acc : R) p :
  wind_sum (A := ArithR) acc p = acc + open_sum (fun a b => (X b - X a) * (Y b + Y a)) p.
Proof.
  revert acc. induction p as [|a p IH]; intros acc; [cbn [wind_sum open_sum]; rcbn; ring|].
  destruct p as [|b p]; [cbn [wind_sum open_sum]; rcbn; ring|].
  rewrite open_cons. change (wind_sum (A := ArithR) acc (a :: b :: p)) with
    (wind_sum (A := ArithR) (acc + (px b - px a) * (py b + py a))%R (b :: p)). rewrite IH. rcbn. pt. ring.
Qed.

Lemma winding_area p : p <> [] -> isWindingCW p = Ok (Rltb (area2 p) 0).
Proof.
  intros H. destruct p as [|a p]; [congruence|]. unfold isWindingCW. f_equal.
  rewrite wind_sum_open. rcbn.
  match goal with |- Rltb 0 ?e = _ => assert (E : e = - area2 (a :: p)) end.
  { transitivity (cyc_sum (fun a b => (X b - X a) * (Y b + Y a)) (a :: p)).
    - unfold cyc_sum. change Rpoint with (@point ArithR). pt. ring.
    - transitivity (cyc_sum (fun a b => (X b * Y b - X a * Y a) + (-1) * (X a * Y b - X b * Y a)) (a :: p)).
      + apply cyc_ext. intros. ring.
      + rewrite (cyc_lin (fun a b => X b * Y b - X a * Y a) (fun a b => X a * Y b - X b * Y a)).
        rewrite (cyc_tele (fun a => X a * Y a)). unfold area2. ring. }
  rewrite E. destruct (Rltb_spec 0 (- area2 (a :: p))), (Rltb_spec (area2 (a :: p)) 0); auto; lra.
Qed.

Lemma area_rot p q : area2 (p ++ q) = area2 (q ++ p).
Proof. apply cyc_rot. Qed.
Lemma area_rev p : area2 (rev p) = - area2 p.
Proof.
  unfold area2. rewrite cyc_rev.
  transitivity (cyc_sum (fun a b => 0 + (-1) * (X a * Y b - X b * Y a)) p).
  - apply cyc_ext. intros. ring.
  - rewrite (cyc_lin (fun _ _ => 0)).
    replace (cyc_sum (fun _ _ => 0) p) with 0; [ring|]. symmetry.
    transitivity (cyc_sum (fun a b => (fun _ => 0) b - (fun _ => 0) a) p); [apply cyc_ext; intros; cbn; ring|].
    apply (cyc_tele (fun _ => 0)).
Qed.
Definition moved (dx dy dz : R) (a : Rpoint) : Rpoint := P3 (A := ArithR) (X a + dx) (Y a + dy) (Z3 a + dz).
Lemma area_moved dx dy dz p : area2 (map (moved dx dy dz) p) = area2 p.
Proof.
  unfold area2. rewrite cyc_map.
  transitivity (cyc_sum (fun a b => (X a * Y b - X b * Y a) + 1 * (dx * (Y b - Y a) - dy * (X b - X a))) p).
  - apply cyc_ext. intros. unfold moved. pt. cbn [px py]. rcbn. ring.
  - rewrite cyc_lin.
    transitivity (cyc_sum (fun a b => X a * Y b - X b * Y a) p +
      1 * cyc_sum (fun a b => (dx * Y b - dy * X b) - (dx * Y a - dy * X a)) p).
    + f_equal. f_equal. apply cyc_ext. intros. ring.
    + rewrite (cyc_tele (fun a => dx * Y a - dy * X a)). ring.
Qed.
(** a repeated end point does not matter *)
Lemma area_closed (a : Rpoint) p : area2 (a :: p ++ [a]) = area2 (a :: p).
Proof.
  unfold area2. change (a :: p ++ [a]) with ((a :: p) ++ [a]). rewrite cyc_rot. cbn [List.app].
  rewrite !cyc_closed. cbn [List.app]. rewrite open_cons. ring.
Qed.

(** ** FindCentroid *)
Lemma cent_sum_open (c : @cent ArithR) p :
  let S f := open_sum f p in
  cent_sum c p = Cent (A := ArithR)
    (c_a c + S (fun a b => X a * Y b - X b * Y a))
    (c_a2 c + S (fun a b => X a * Z3 b - X b * Z3 a))
    (c_a3 c + S (fun a b => Y a * Z3 b - Y b * Z3 a))
    (c_cx c + S (fun a b => (X a + X b) * (X a * Y b - X b * Y a)))
    (c_cy c + S (fun a b => (Y a + Y b) * (X a * Y b - X b * Y a)))
    (c_cy2 c + S (fun a b => (Y a + Y b) * (Y a * Z3 b - Y b * Z3 a)))
    (c_cz2 c + S (fun a b => (Z3 a + Z3 b) * (Y a * Z3 b - Y b * Z3 a)))
    (c_cx2 c + S (fun a b => (X a + X b) * (X a * Z3 b - X b * Z3 a)))
    (c_cz c + S (fun a b => (Z3 a + Z3 b) * (X a * Z3 b - X b * Z3 a))).
Proof.
  cbv zeta. revert c. induction p as [|a p IH]; intros c.
  - destruct c as [k1 k2 k3 k4 k5 k6 k7 k8 k9]. cbn [cent_sum open_sum c_a c_a2 c_a3 c_cx c_cy c_cy2 c_cz2 c_cx2 c_cz]. f_equal; rcbn; ring.
  - destruct p as [|b p].
    + destruct c as [k1 k2 k3 k4 k5 k6 k7 k8 k9]. cbn [cent_sum open_sum c_a c_a2 c_a3 c_cx c_cy c_cy2 c_cz2 c_cx2 c_cz]. f_equal; rcbn; ring.
    + change (cent_sum c (a :: b :: p)) with (cent_sum (cent_step c a b) (b :: p)). rewrite IH.
      unfold cent_step. cbn [c_a c_a2 c_a3 c_cx c_cy c_cy2 c_cz2 c_cx2 c_cz]. rewrite !open_cons. pt. rcbn.
      f_equal; ring.
Qed.

(** The area-weighted mean of the centroids of the fan triangles with apex (ox, oy). *)
Definition fan_area2 (ox oy : R) p := cyc_sum (tri2 ox oy) p.
Definition fan_x (ox oy : R) p := cyc_sum (fun a b => tri2 ox oy a b * ((ox + X a + X b) / 3)) p / fan_area2 ox oy p.
Definition fan_y (ox oy : R) p := cyc_sum (fun a b => tri2 ox oy a b * ((oy + Y a + Y b) / 3)) p / fan_area2 ox oy p.

Lemma fan_area ox oy p : fan_area2 ox oy p = area2 p.
Proof.
  unfold fan_area2, area2.
  transitivity (cyc_sum (fun a b => (X a * Y b - X b * Y a) + 1 * ((oy * X b - ox * Y b) - (oy * X a - ox * Y a))) p).
  - apply cyc_ext. intros. unfold tri2. ring.
  - rewrite cyc_lin, (cyc_tele (fun a => oy * X a - ox * Y a)). ring.
Qed.

Lemma fan_mx ox oy p : cyc_sum (fun a b => tri2 ox oy a b * (ox + X a + X b)) p =
  cyc_sum (fun a b => (X a + X b) * (X a * Y b - X b * Y a)) p.
Proof.
  transitivity (cyc_sum (fun a b => (X a + X b) * (X a * Y b - X b * Y a) +
     1 * ((oy * X b * X b - ox * X b * Y b + ox * oy * X b - ox * ox * Y b) -
          (oy * X a * X a - ox * X a * Y a + ox * oy * X a - ox * ox * Y a))) p).
  - apply cyc_ext. intros. unfold tri2. ring.
  - rewrite cyc_lin, (cyc_tele (fun a => oy * X a * X a - ox * X a * Y a + ox * oy * X a - ox * ox * Y a)). ring.
Qed.
Lemma fan_my ox oy p : cyc_sum (fun a b => tri2 ox oy a b * (oy + Y a + Y b)) p =
  cyc_sum (fun a b => (Y a + Y b) * (X a * Y b - X b * Y a)) p.
Proof.
  transitivity (cyc_sum (fun a b => (Y a + Y b) * (X a * Y b - X b * Y a) +
     1 * ((oy * X b * Y b - ox * Y b * Y b + oy * oy * X b - ox * oy * Y b) -
          (oy * X a * Y a - ox * Y a * Y a + oy * oy * X a - ox * oy * Y a))) p).
  - apply cyc_ext. intros. unfold tri2. ring.
  - rewrite cyc_lin, (cyc_tele (fun a => oy * X a * Y a - ox * Y a * Y a + oy * oy * X a - ox * oy * Y a)). ring.
Qed.

Lemma cyc_scale f k p : cyc_sum (fun a b => f a b * k) p = cyc_sum f p * k.
Proof.
  transitivity (cyc_sum (fun a b => f a b + (k - 1) * f a b) p).
  - apply cyc_ext. intros. ring.
  - rewrite cyc_lin. ring.
Qed.

Lemma open_in f g p : (forall a b, In a p -> In b p -> f a b = g a b) -> open_sum f p = open_sum g p.
Proof.
  induction p as [|a [|b p] IH]; intros H; try reflexivity.
  rewrite !open_cons, IH, H; cbn; auto. intros x y Hx Hy. apply H; cbn in *; tauto.
Qed.

Theorem centroid_flat (a : Rpoint) p h ox oy :
  Forall (fun q : Rpoint => Z3 q = h) (a :: p) -> Rabs (area2 (a :: p)) >= 2 / 1000000 ->
  findCentroid (a :: p ++ [a]) = Ok (P3 (A := ArithR) (fan_x ox oy (a :: p)) (fan_y ox oy (a :: p)) h).
Proof.
  intros Hh HA. unfold findCentroid. f_equal. rewrite cent_sum_open. cbv zeta.
  rewrite <- !cyc_closed. fold (area2 (a :: p)).
  assert (In_h : forall b, In b (a :: p ++ [a]) -> Z3 b = h).
  { rewrite Forall_forall in Hh. intros b Hb. apply Hh. change (a :: p ++ [a]) with ((a :: p) ++ [a]) in Hb.
    apply in_app_iff in Hb. destruct Hb as [Hb|[<-|[]]]; [exact Hb|now left]. }
  assert (Z0 : forall u : Rpoint -> R, cyc_sum (fun a b => u a * Z3 b - u b * Z3 a) (a :: p) = 0).
  { intros u. transitivity (cyc_sum (fun a b => (- h * u b) - (- h * u a)) (a :: p)).
    - rewrite !cyc_closed. apply open_in. intros x y Hx Hy. rewrite (In_h x Hx), (In_h y Hy). ring.
    - apply (cyc_tele (fun a => - h * u a)). }
  rewrite (Z0 X), (Z0 Y).
  set (SX := cyc_sum (fun a b => (X a + X b) * (X a * Y b - X b * Y a)) (a :: p)).
  set (SY := cyc_sum (fun a b => (Y a + Y b) * (X a * Y b - X b * Y a)) (a :: p)).
  assert (A0 : area2 (a :: p) <> 0).
  { intros E. rewrite E, Rabs_R0 in HA. lra. }
  assert (FX : fan_x ox oy (a :: p) = SX / 3 / area2 (a :: p)).
  { unfold fan_x. rewrite fan_area. f_equal. unfold SX. rewrite <- (fan_mx ox oy).
    transitivity (cyc_sum (fun a b => (tri2 ox oy a b * (ox + X a + X b)) * (/ 3)) (a :: p)).
    - apply cyc_ext. intros. unfold Rdiv. ring.
    - now rewrite cyc_scale. }
  assert (FY : fan_y ox oy (a :: p) = SY / 3 / area2 (a :: p)).
  { unfold fan_y. rewrite fan_area. f_equal. unfold SY. rewrite <- (fan_my ox oy).
    transitivity (cyc_sum (fun a b => (tri2 ox oy a b * (oy + Y a + Y b)) * (/ 3)) (a :: p)).
    - apply cyc_ext. intros. unfold Rdiv. ring.
    - now rewrite cyc_scale. }
  rewrite FX, FY. clearbody SX SY.
  unfold cent_finish, cent0. cbn [c_a c_a2 c_a3 c_cx c_cy c_cy2 c_cz2 c_cx2 c_cz].
  unfold nofZ. rcbn.
  assert (ZA : almostZero (A := ArithR) ((0 + area2 (a :: p)) * (5 / 10))%R = false).
  { apply not_true_is_false. intros C. apply almostZero_R in C.
    rewrite Rplus_0_l, Rabs_mult, (Rabs_pos_eq (5 / 10)) in C by lra. lra. }
  assert (ZZ : almostZero (A := ArithR) ((0 + 0) * (5 / 10))%R = true).
  { apply almostZero_R. replace ((0 + 0) * (5 / 10)) with 0 by field. rewrite Rabs_R0. lra. }
  rewrite ZA, ZZ. cbn [negb andb]. f_equal.
  - field. auto.
  - field. auto.
  - change (pz a) with (Z3 a). apply In_h. now left.
Qed.

(** ** MinimizeLines *)
Lemma collinear_x (l1 l2 : Rline) :
  Y (lp1 l1) = 0 -> Y (lp2 l1) = 0 -> Y (lp1 l2) = 0 -> Y (lp2 l2) = 0 ->
  Z3 (lp1 l1) = 0 -> Z3 (lp2 l1) = 0 -> Z3 (lp1 l2) = 0 -> Z3 (lp2 l2) = 0 -> isCollinear l1 l2 = true.
Proof.
  intros E1 E2 E3 E4 E5 E6 E7 E8. unfold isCollinear. apply almostZero_R.
  unfold vlen, vlen2, cross, l_vec, vectorTo. cbn [vx vy vz]. pt. rcbn. rewrite E1, E2, E3, E4, E5, E6, E7, E8.
  replace (_ + _ + _) with 0 by ring. rewrite sqrt_0, Rabs_R0. lra.
Qed.

Definition ptX (x : R) : Rpoint := P3 (A := ArithR) x 0 0.

Lemma min_spike (D : R) : 2 <= D -> minimizeLines [ptX 0; ptX D; ptX 1] = [ptX 0; ptX 1].
Proof.
  intros HD. unfold minimizeLines. cbn [min_loop lp2 lp1].
  rewrite collinear_x by reflexivity. cbn [tl rev List.app]. unfold min_seam.
  match goal with |- context[isClosed ?l] => assert (isClosed l = false) as -> end; [|reflexivity].
  unfold isClosed. cbn [last]. apply pt_equal_R_false. unfold closer, ptX. pt. cbn [px]. 
  intros [C _]. replace (0 - 1) with (- (1)) in C by ring. rewrite Rabs_Ropp, Rabs_R1 in C. lra.
Qed.

Lemma collinear_back (a b : Rpoint) : isCollinear (L2 (A := ArithR) a b) (L2 (A := ArithR) b a) = true.
Proof.
  unfold isCollinear. apply almostZero_R. unfold vlen, vlen2, cross, l_vec, vectorTo. cbn [vx vy vz lp1 lp2]. rcbn.
  replace (_ + _ + _) with 0 by ring. rewrite sqrt_0, Rabs_R0. lra.
Qed.
Lemma collinear_null (a b : Rpoint) : isCollinear (L2 (A := ArithR) a a) (L2 (A := ArithR) a b) = true.
Proof.
  unfold isCollinear. apply almostZero_R. unfold vlen, vlen2, cross, l_vec, vectorTo. cbn [vx vy vz lp1 lp2]. rcbn.
  replace (_ + _ + _) with 0 by ring. rewrite sqrt_0, Rabs_R0. lra.
Qed.

(** there and back: everything goes *)
Lemma min_back (a b : Rpoint) : minimizeLines [a; b; a] = [a].
Proof.
  unfold minimizeLines. cbn [min_loop lp2 lp1]. rewrite collinear_back. cbn [tl rev List.app]. unfold min_seam.
  match goal with |- context[isClosed ?l] => assert (isClosed l = true) as -> end.
  { unfold isClosed. cbn [last]. apply pt_equal_refl. }
  rewrite collinear_null. rcbn. assert (forall x : R, Rltb x x = false) as -> by (intros; apply Rltb_false; lra).
  reflexivity.
Qed.
