(** * Property C113: three-axis printing in float64 *)
From Coq Require Import String ZArith NArith Ascii Reals Lra Lia List Bool Permutation PeanoNat.
From Flocq Require Import Core.Raux IEEE754.BinarySingleNaN.
From Verif Require Import Arith ArithF64 Prim Path GeomSpec MeshProofs Helpers Gcode GcodeSpec GcodeInstr GcodeClaims GcodeProofs TextOK GcodeProofs5 F64Facts
  Slicer SlicerClaims SlicerFloat Properties_Slicer Fill FillClaims FillProofs Properties_Fill Vip Main MainClaims Properties_Main
  WhereClaims WhereProofs FloatGeom FloatClaims FloatSlice FloatFill.
Import ListNotations.
Close Scope Z_scope.
Close Scope num_scope.
Close Scope string_scope.
Open Scope list_scope.
Local Open Scope R_scope.

Section F.
Variable E : elem.
Notation AE := (ArithF64 E).
Notation pt := (@point AE).

(** ** The contours *)

(** Every vertex of every contour of a layer is within 5.2e-9 mm, on every axis, of a point of
    a side of a triangle of the model and of one height h; h differs from the height of the
    middle of the layer by at most 2.5e-11 mm per layer. *)
Theorem C113_contours : forall (m : @mesh AE) (mn mx : R) (U : @env AE) (s : @settings AE) ls,
  legal U -> m <> [] -> Forall (sized E 10000) (vertices m) -> bottom_of E m mn -> top_of E m mx -> mn < mx ->
  / 10 ^ 4 <= B2R (s_layerHeight s : f64) -> s_supportsOn s = false ->
  sliceByVector U m axisZ s = Ok ls ->
  exists n d,
    (mx - mn) / B2R (s_layerHeight s : f64) - / 10 ^ 6 <= IZR n < (mx - mn) / B2R (s_layerHeight s : f64) + 1 + / 10 ^ 6 /\
    (d <= 1)%nat /\
    forall k l, nth_error ls k = Some l -> l_order l = Z.of_nat (k + d) /\ (k + d < Z.to_nat n)%nat /\
      exists h, Rabs (h - nominal mn mx n (k + d)) <= (INR (k + d) + 1) * (25 / 10 ^ 12) /\
        forall p q, In p (l_paths l) -> In q p -> cut_point E (52 / 10 ^ 10) m h q.
Proof.
  intros m mn mx U s ls HU Hm Hv Lo Hi Lt BL Hs H. exact (slice_float E m mn mx U s ls HU Hm Hv Lo Hi Lt BL Hs H).
Qed.

(** ** The file *)

(** on or near a section of the model *)
Record spot (m : @mesh AE) (h : R) (q : pt) : Prop := {
  so_fin : pt_fin E q;
  so_x : forall lo hi, (forall v, In v (vertices m) -> lo <= rx E v <= hi) -> lo - 6 / 10 ^ 9 <= rx E q <= hi + 6 / 10 ^ 9;
  so_y : forall lo hi, (forall v, In v (vertices m) -> lo <= ry E v <= hi) -> lo - 6 / 10 ^ 9 <= ry E q <= hi + 6 / 10 ^ 9;
  so_z : Rabs (rz E q - h) <= 6 / 10 ^ 9
}.

Lemma conv_tol s a b q d lo hi : 0 <= s <= 1 -> lo <= a <= hi -> lo <= b <= hi -> Rabs (q - (a + s * (b - a))) <= d -> lo - d <= q <= hi + d.
Proof. intros Hs Ha Hb Hq. apply Rabs_le_inv in Hq. assert (lo <= a + s * (b - a) <= hi) by nra. lra. Qed.

Lemma edge_vertices (m : @mesh AE) a b : edge_of E m a b -> In a (vertices m) /\ In b (vertices m).
Proof.
  intros (t & Ht & H). assert (V : forall v, In v [t1 t; t2 t; t3 t] -> In v (vertices m)).
  { intros v Hv. unfold vertices. apply in_flat_map. exists t. split; assumption. }
  destruct H as [[-> ->]|[[-> ->]|[-> ->]]]; split; apply V; cbn; auto.
Qed.

Lemma cut_bounds (m : @mesh AE) h q : cut_point E tol m h q ->
  (forall lo hi, (forall v, In v (vertices m) -> lo <= rx E v <= hi) -> lo - tol <= rx E q <= hi + tol) /\
  (forall lo hi, (forall v, In v (vertices m) -> lo <= ry E v <= hi) -> lo - tol <= ry E q <= hi + tol) /\
  h - tol <= rz E q <= h + tol.
Proof.
  intros (_ & Hz & a & b & Ed & s & Hs & Sx & Sy & _). destruct (edge_vertices m a b Ed) as [Va Vb].
  split; [|split].
  - intros lo hi H. exact (conv_tol _ _ _ _ _ _ _ Hs (H a Va) (H b Vb) Sx).
  - intros lo hi H. exact (conv_tol _ _ _ _ _ _ _ Hs (H a Va) (H b Vb) Sy).
  - apply Rabs_le_inv in Hz. lra.
Qed.

Lemma cut_spot m h q : cut_point E tol m h q -> spot m h q.
Proof.
  intros H. pose proof (cut_bounds m h q H) as (Bx & By & Bz). split.
  - destruct H as (S & _). exact (sized_fin E _ _ S).
  - intros lo hi K. specialize (Bx lo hi K). unfold tol in Bx. lra.
  - intros lo hi K. specialize (By lo hi K). unfold tol in By. lra.
  - unfold tol in Bz. apply Rabs_le. lra.
Qed.
Lemma beside_spot m h a b q : cut_point E tol m h a -> cut_point E tol m h b -> pt_fin E q -> beside_segment E es a b q -> spot m h q.
Proof.
  intros Ha Hb F (s & Hs & Sx & Sy & Sz). destruct (cut_bounds m h a Ha) as (Ax & Ay & Az). destruct (cut_bounds m h b Hb) as (Bx & By & Bz).
  split; [exact F| | |].
  - intros lo hi K. pose proof (conv_tol _ _ _ _ _ _ _ Hs (Ax lo hi K) (Bx lo hi K) Sx). unfold tol, es in *. lra.
  - intros lo hi K. pose proof (conv_tol _ _ _ _ _ _ _ Hs (Ay lo hi K) (By lo hi K) Sy). unfold tol, es in *. lra.
  - pose proof (conv_tol _ _ _ _ _ _ _ Hs Az Bz Sz). unfold tol, es in *. apply Rabs_le. lra.
Qed.

Lemma filled_float (m : @mesh AE) (mn mx : R) (U : @env AE) (s : @settings AE) ls out :
  legal U -> m <> [] -> Forall (sized E 10000) (vertices m) -> bottom_of E m mn -> top_of E m mx -> mn < mx ->
  / 10 ^ 4 <= B2R (s_layerHeight s : f64) -> s_supportsOn s = false ->
  (0 <= s_fillDensity s <= 100)%Z -> positive (LineWidth (s_g s)) ->
  sliceByVector U m axisZ s = Ok ls -> fillLayers U ls (fst (calcFillPlanes m s)) (snd (calcFillPlanes m s)) s = Ok out ->
  exists n d, about (s_layerHeight s) mn mx n /\ (d <= 1)%nat /\
    forall k l, nth_error out k = Some l -> (k + d < Z.to_nat n)%nat /\
      exists h, Rabs (h - nominal mn mx n (k + d)) <= drift (k + d) /\
        forall p q, In p (layer_paths l) -> In q p -> spot m h q.
Proof.
  intros HU Hm Hv Lo Hi Lt BL Hs Hd Pw El F.
  destruct (slice_float E m mn mx U s ls HU Hm Hv Lo Hi Lt BL Hs El) as (n & d & An & Ld & K).
  destruct (calc_ok E m s Hd Pw) as [O1 O2].
  pose proof (bare_layers U m axisZ s ls HU El) as B.
  exists n, d. split; [exact An|]. split; [exact Ld|]. intros k l' Hk'.
  destruct (C47_fill (A := AE) U ls (fst (calcFillPlanes m s)) (snd (calcFillPlanes m s)) s) as (out' & F' & S & KF).
  { eapply Forall_impl; [|exact B]. cbn beta. intros l (_ & _ & ->). constructor. }
  rewrite F in F'. injection F' as <-.
  assert (Hl : exists l, nth_error ls k = Some l /\ same_but_fill l l').
  { clear -S Hk'. revert k Hk'. induction S as [|x y ls out H S IH]; intros [|k]; cbn; try discriminate; [|apply IH]. intros [= <-]. eauto. }
  destruct Hl as (l & Hk & SB).
  destruct (K k l Hk) as (_ & Lk & h & Eh & Cut). split; [exact Lk|]. exists h. split; [exact Eh|].
  rewrite Forall_forall in B. destruct (B l (nth_error_In _ _ Hk)) as (B1 & B2 & B3).
  destruct (KF k l l' Hk Hk') as (pls & Q1 & Q2 & _ & Fl & _).
  assert (Ok : Forall (plane_ok E) pls).
  { destruct (Z_lt_dec (Z.of_nat k) (s_bottomLayers s)) as [D|D]; [rewrite Q1 by (left; exact D); exact O2|].
    destruct (Z_le_dec (Z.of_nat (length ls) - s_topLayers s) (Z.of_nat k)) as [D'|D']; [rewrite Q1 by (right; exact D'); exact O2|].
    rewrite Q2 by lia. exact O1. }
  destruct SB as (_ & _ & P1 & P2 & P3).
  intros p q H1 H2. unfold layer_paths in H1. rewrite !in_app_iff in H1.
  rewrite <- P1, <- P2, <- P3, B1, B2 in H1. cbn [oslice In] in H1. destruct H1 as [H1|[[]|[[]|H1]]].
  - apply cut_spot. exact (Cut p q H1 H2).
  - rewrite Forall_forall in Fl. destruct (Fl p H1) as (f & Hf1 & Hf2). rewrite B3 in Hf1. cbn [app] in Hf1.
    apply in_flat_map in Hf1. destruct Hf1 as (pl & Hpl & Hf1).
    assert (Cp : contours l = l_paths l) by (unfold contours; now rewrite B2). rewrite Cp in Hf1.
    assert (Hq : In q f) by (destruct Hf2 as [-> | ->]; [exact H2|now apply in_rev]).
    rewrite Forall_forall in Ok.
    destruct (fill_beside E U (l_paths l) pl f q HU) as (r & a & b & Hr & Ha & Hb & Fq & Bs); try assumption; [|now apply Ok|].
    { intros r x Hr Hx. exact (proj1 (Cut r x Hr Hx)). }
    exact (beside_spot m h a b q (Cut r a Hr Ha) (Cut r b Hr Hb) Fq Bs).
Qed.

(** half a thousandth for the text, and the rest *)
Definition slack64 : R := 5 / 10 ^ 4 + 6 / 10 ^ 9.
Definition between64 (g : pt -> R) (m : @mesh AE) (v : val) : Prop :=
  exists x, written v x /\ forall lo hi, (forall a, In a (vertices m) -> lo <= g a <= hi) -> lo - slack64 <= x <= hi + slack64.
Definition near64 (c d : R) (v : val) : Prop := exists x, written v x /\ Rabs (x - c) <= slack64 + d.

Lemma V_written64 (x : f64) : is_finite x = true -> exists y, written (@V AE x) y /\ Rabs (y - B2R x) <= 5 / 10 ^ 4.
Proof.
  intros F. rewrite (V_finite E x F). set (z := Generic_fmt.Znearest _ _). exists (IZR z / 1000). split; [exists z; auto|].
  pose proof (Generic_fmt.Znearest_half (fun x => negb (Z.even x)) (1000 * B2R x)) as Hh.
  change (Rabs (1000 * B2R x - IZR z) <= / 2) in Hh. apply Rabs_le_inv in Hh. apply Rabs_le. lra.
Qed.

(** In float64, for a model whose coordinates (as moved by the origin flags) are not above ten
    metres and layers of at least a ten-thousandth: every print move of layer k of the file
    runs at the height of the middle of the k-th layer (the (k+1)-th if the first was empty) and
    within the bounds of the model, up to the written decimals, 6e-9 and 2.5e-11 per layer. *)
Theorem C113_three_axes : forall (X0 : @outside AE) (f : @flags AE) out mn mx,
  good_outside X0 -> legal (ex_U X0) -> fl_slicingType f = "3axes"%string -> fl_supportsOn f = false ->
  (0 <= fl_fillDensity f <= 100)%Z -> is_finite (fl_lineWidth f : f64) = true -> 0 < B2R (fl_lineWidth f : f64) ->
  / 10 ^ 4 <= B2R (fl_layerHeight f : f64) -> ex_mesh X0 <> [] ->
  let model := m_shift (ex_mesh X0) (fl_origin f) in
  Forall (sized E 10000) (vertices model) -> bottom_of E model mn -> top_of E model mx -> mn < mx ->
  goosli X0 f = Ok out ->
  exists head t foot is n d,
    out = (head ++ t ++ foot)%string /\ read_gcode t = Some is /\
    (mx - mn) / B2R (fl_layerHeight f : f64) - / 10 ^ 6 <= IZR n < (mx - mn) / B2R (fl_layerHeight f : f64) + 1 + / 10 ^ 6 /\
    (d <= 1)%nat /\
    forall m0, Forall (fun e => is_print (ev_instr e) = true ->
      exists k, c_layer (ev_at e) = Some (N.of_nat k) /\ (k + d < Z.to_nat n)%nat /\
        forall m, m = ev_before e \/ m = ev_after e ->
          between64 (rx E) model (m_x m) /\ between64 (ry E) model (m_y m) /\
          near64 (nominal mn mx n (k + d)) ((INR (k + d) + 1) * (25 / 10 ^ 12)) (m_z m)) (events ctx0 m0 is).
Proof.
  intros X0 f out mn mx G HU T3 Hs Hd Fw Pw BL Hne model Hv Lo Hi Lt H.
  destruct (goosli_inv X0 f out G H) as (g & t & hl & fl & is & s' & Es & E0 & -> & I & R & _ & _).
  unfold slicing in Es. rewrite T3 in Es. cbn [String.eqb Ascii.eqb Bool.eqb] in Es. unfold sliceByVectorToGcode in Es. fold model in Es.
  destruct (sliceByVector (ex_U X0) model axisZ (settingsOf (ex_now X0) f)) as [ls| |] eqn:El; cbn [rbind] in Es; try discriminate Es.
  assert (Hne' : model <> []) by (unfold model; destruct (ex_mesh X0); [contradiction|discriminate]).
  pose proof (fun lf => filled_float model mn mx (ex_U X0) (settingsOf (ex_now X0) f) ls lf HU Hne' Hv Lo Hi Lt BL Hs Hd (positive_R _ Fw Pw) El) as K.
  destruct (calcFillPlanes model (settingsOf (ex_now X0) f)) as [fp ff]. cbn [fst snd] in K.
  destruct (fillLayers (ex_U X0) ls fp ff (settingsOf (ex_now X0) f)) as [lf| |] eqn:Ef; cbn [rbind] in Es; try discriminate Es.
  injection Es as <-. destruct (K lf eq_refl) as (n & d & An & Ld & Lay). clear K.
  exists hl, t, fl, is, n, d. split; [reflexivity|]. split; [exact R|]. split; [exact An|]. split; [exact Ld|].
  intros m0. pose proof (cmds_among _ _ _ _ _ ctx0 m0 I (Z.le_refl 0)) as W.
  eapply Forall_impl; [|exact W]. intros e He Hp. destruct (He Hp) as (j & l & C1 & C2 & C3).
  cbn [g_addLayers g_add newGcode g_cmds flat_map cmd_layers app] in C2. rewrite app_nil_r in C2.
  destruct (Lay j l C2) as (K1 & h & Eh & K2). exists j. split; [exact C1|]. split; [exact K1|].
  destruct (C3 Hp) as (p & Hpl & A1 & A2). apply section_layer in Hpl.
  assert (Q : forall m, among p m ->
    between64 (rx E) model (m_x m) /\ between64 (ry E) model (m_y m) /\ near64 (nominal mn mx n (j + d)) ((INR (j + d) + 1) * (25 / 10 ^ 12)) (m_z m)).
  { intros m ((qx & Ix & Ex) & (qy & Iy & Ey) & (qz & Iz & Ez)). rewrite Ex, Ey, Ez.
    pose proof (K2 p qx Hpl Ix) as Sx. pose proof (K2 p qy Hpl Iy) as Sy. pose proof (K2 p qz Hpl Iz) as Sz.
    destruct (V_written64 (px qx) (proj1 (so_fin _ _ _ Sx))) as (x & Wx & Bx).
    destruct (V_written64 (py qy) (proj1 (proj2 (so_fin _ _ _ Sy)))) as (y & Wy & By).
    destruct (V_written64 (pz qz) (proj2 (proj2 (so_fin _ _ _ Sz)))) as (z & Wz & Bz).
    apply Rabs_le_inv in Bx, By, Bz. fold (rx E qx) in Bx. fold (ry E qy) in By. fold (rz E qz) in Bz.
    split; [|split].
    - exists x. split; [exact Wx|]. intros lo hi Hb. pose proof (so_x _ _ _ Sx lo hi Hb). unfold slack64. lra.
    - exists y. split; [exact Wy|]. intros lo hi Hb. pose proof (so_y _ _ _ Sy lo hi Hb). unfold slack64. lra.
    - exists z. split; [exact Wz|]. pose proof (so_z _ _ _ Sz) as B. unfold drift in Eh. apply Rabs_le_inv in B, Eh. unfold slack64. apply Rabs_le. lra. }
  intros m [-> | ->]; apply Q; assumption.
Qed.
End F.

(** ** A case: the tetrahedron of the other files, layers of 0.3 *)
Section Examples.
Let AF := ArithF64 elem0.
Local Existing Instance AF.
Definition zero_or_one (x : f64) : bool :=
  match x with B754_zero _ => true | B754_finite false m e _ => (Pos.eqb m (2 ^ 52) && Z.eqb e (-52))%bool | _ => false end.
Lemma zo_R x : zero_or_one x = true -> is_finite x = true /\ (B2R x = 0 \/ B2R x = 1).
Proof.
  destruct x as [s|s| |[] m e H]; cbn [zero_or_one]; try discriminate; intros C; (split; [reflexivity|]); [left; reflexivity|right].
  apply andb_true_iff in C. destruct C as [C1 C2]. apply Pos.eqb_eq in C1. apply Z.eqb_eq in C2. subst m e.
  unfold B2R, Defs.F2R. cbn. lra.
Qed.
Definition is_z (x : f64) : bool := match x with B754_zero _ => true | _ => false end.
Lemma z_R x : is_z x = true -> B2R x = 0.
Proof. destruct x; try discriminate. reflexivity. Qed.
Lemma nz_R x : zero_or_one x = true -> negb (is_z x) = true -> B2R x = 1.
Proof.
  intros H N. destruct (zo_R x H) as [_ [K|K]]; [|exact K]. destruct x as [s|s| |[] m e Hm]; try discriminate.
  cbn [zero_or_one] in H. apply andb_true_iff in H. destruct H as [C1 C2]. apply Pos.eqb_eq in C1. apply Z.eqb_eq in C2. subst.
  unfold B2R, Defs.F2R in *. cbn in *. lra.
Qed.
Definition zo_pt (p : @point AF) : bool := (zero_or_one (px p) && zero_or_one (py p) && zero_or_one (pz p))%bool.
Lemma zo_sized p : zo_pt p = true -> sized elem0 10000 p /\ 0 <= rz elem0 p <= 1.
Proof.
  unfold zo_pt. intros H. apply andb_true_iff in H. destruct H as [H Hz]. apply andb_true_iff in H. destruct H as [Hx Hy].
  apply zo_R in Hx, Hy, Hz. unfold sized, rx, ry, rz. destruct Hx as [Fx Hx], Hy as [Fy Hy], Hz as [Fz Hz].
  assert (B : forall r, r = 0 \/ r = 1 -> Rabs r <= 10000) by (intros r [-> | ->]; apply Rabs_le; lra).
  assert (B' : forall r, r = 0 \/ r = 1 -> 0 <= r <= 1) by (intros r [-> | ->]; lra).
  split; [|exact (B' _ Hz)]. exact (conj (conj Fx (B _ Hx)) (conj (conj Fy (B _ Hy)) (conj Fz (B _ Hz)))).
Qed.
Lemma zo_model (m : @mesh AF) : forallb zo_pt (vertices m) = true ->
  existsb (fun v => is_z (pz v)) (vertices m) = true ->
  existsb (fun v => negb (is_z (pz v))) (vertices m) = true ->
  Forall (sized elem0 10000) (vertices m) /\ bottom_of elem0 m 0 /\ top_of elem0 m 1.
Proof.
  intros H Z0 Z1. rewrite forallb_forall in H. apply existsb_exists in Z0, Z1. destruct Z0 as (a & Ia & Ea), Z1 as (b & Ib & Eb).
  split; [apply Forall_forall; intros v Hv; now apply zo_sized, H|]. split; split; try (intros v Hv; now apply zo_sized, H).
  - exists a. split; [exact Ia|]. exact (z_R _ Ea).
  - exists b. split; [exact Ib|]. specialize (H b Ib). unfold zo_pt in H. apply andb_true_iff in H. exact (nz_R _ (proj2 H) Eb).
Qed.
Lemma quarter (x : f64) : match x with B754_finite false m e _ => (Pos.leb (2 ^ 52) m && Z.eqb e (-54))%bool | _ => false end = true ->
  is_finite x = true /\ / 4 <= B2R x.
Proof.
  destruct x as [s|s| |[] m e H]; try discriminate. intros C. split; [reflexivity|].
  apply andb_true_iff in C. destruct C as [C1 C2]. apply Pos.leb_le in C1. apply Z.eqb_eq in C2. subst e.
  assert (IZR (Zpos (2 ^ 52)) <= IZR (Zpos m)) by (apply IZR_le; lia). unfold B2R, Defs.F2R. cbn in *. lra.
Qed.
(** hypotheses of [C113_contours]; four layers come out ([Properties_Slicer.ex_run]) *)
Example ex_contours64 : legal (@env0 AF) /\ tetraF <> [] /\ Forall (sized elem0 10000) (vertices tetraF) /\ bottom_of elem0 tetraF 0 /\ top_of elem0 tetraF 1 /\
  0 < 1 /\ / 10 ^ 4 <= B2R (s_layerHeight (sett0 (nlit 3 10)) : f64) /\ s_supportsOn (sett0 (nlit 3 10)) = false.
Proof.
  split; [exact ex_env_F|]. split; [discriminate|].
  destruct (zo_model tetraF) as (S & B & T); [vm_compute; reflexivity..|]. split; [exact S|]. split; [exact B|]. split; [exact T|]. split; [lra|].
  split; [|reflexivity]. destruct (quarter (s_layerHeight (sett0 (nlit 3 10)))) as [_ Q]; [vm_compute; reflexivity|]. lra.
Qed.
(** hypotheses of [C113_three_axes], and the file has print moves *)
Definition ex_model : @mesh AF := m_shift (ex_mesh ex_outside) (fl_origin (ex_flags "3axes" false)).
Example ex_three_axes64 : let f := ex_flags "3axes" false in
  good_outside ex_outside /\ legal (ex_U ex_outside) /\ fl_slicingType f = "3axes"%string /\ fl_supportsOn f = false /\
  (0 <= fl_fillDensity f <= 100)%Z /\ is_finite (fl_lineWidth f : f64) = true /\ 0 < B2R (fl_lineWidth f : f64) /\
  / 10 ^ 4 <= B2R (fl_layerHeight f : f64) /\ ex_mesh ex_outside <> [] /\
  Forall (sized elem0 10000) (vertices ex_model) /\ bottom_of elem0 ex_model 0 /\ top_of elem0 ex_model 1 /\ 0 < 1 /\
  exists out is, goosli ex_outside f = Ok out /\ read_file out = Some is /\ (12 <= prints is)%nat.
Proof.
  cbv zeta. split; [exact ex_good|]. split; [exact ex_env_F|]. split; [reflexivity|]. split; [reflexivity|].
  split; [split; discriminate|].
  destruct (quarter (fl_lineWidth (ex_flags "3axes" false))) as [Fw Qw]; [vm_compute; reflexivity|].
  destruct (quarter (fl_layerHeight (ex_flags "3axes" false))) as [_ Qh]; [vm_compute; reflexivity|].
  split; [exact Fw|]. split; [lra|]. split; [lra|]. split; [discriminate|].
  destruct (zo_model ex_model) as (S & B & T); [vm_compute; reflexivity..|]. split; [exact S|]. split; [exact B|]. split; [exact T|]. split; [lra|].
  exact ex_goosli.
Qed.
End Examples.

Print Assumptions C113_contours.
Print Assumptions C113_three_axes.
