(** * Properties C91, C92: where the head prints *)
From Coq Require Import String ZArith NArith Ascii Reals Lra Lia List Bool Permutation Sorted PeanoNat.
From Flocq Require Import Core.Raux Core.Generic_fmt Core.Round_NE.
From Verif Require Import Arith ArithR ArithF64 Prim Path PathClaims JoinProofs MinProofs GeomSpec MeshProofs Properties_Path Helpers Gcode GcodeSpec GcodeInstr GcodeClaims GcodeText GcodeProofs TextOK GcodeProofs5
  Properties_Gcode Slicer SlicerClaims SlicerProofs SlicerProofs2 Properties_Slicer Fill FillClaims FillProofs FillProofs2 Properties_Fill Vip Main MainClaims Properties_Main
  WhereClaims WhereProofs.
Import ListNotations.
Close Scope Z_scope.
Close Scope num_scope.
Close Scope string_scope.
Close Scope R_scope.
Open Scope list_scope.
Open Scope nat_scope.

(** ** C91 Print moves stay on their layer *)

(** Before and after every print move the head is on each axis where some vertex of one and
    the same path is written, a path of the layer and of the section that the text names,
    whatever was before. *)
Theorem C91_where : forall (A : Arith) (T : TextOK A) g t, toOutput g = Ok t ->
  exists is, read_gcode t = Some is /\
    forall c m, Forall (moves_among 0 (flat_map cmd_layers (g_cmds g))) (events c m is).
Proof.
  intros A T g t E. destruct (out_reads g t E) as (s' & is & R & I). exists is. split; [exact R|].
  intros c m. exact (cmds_among _ _ _ _ _ c m I (Z.le_refl 0)).
Qed.

(** ** C92 Three-axis printing in space *)
Local Open Scope R_scope.

Lemma V_written (x : R) : exists y, written (V (A := ArithR) x) y /\ Rabs (y - x) <= 5 / 10 ^ 4.
Proof.
  unfold V. rcbn. unfold Rfix3, val_of_fix3.
  set (n := ZnearestE (Rabs x * 1000)).
  pose proof (Znearest_half (fun x => negb (Z.even x)) (Rabs x * 1000)) as Hh. fold n in Hh. apply Rabs_le_inv in Hh.
  assert (Hn : (0 <= n)%Z).
  { enough (-1 < n)%Z by lia. apply lt_IZR. pose proof (Rabs_pos x). lra. }
  rewrite Z2N.id by exact Hn.
  destruct (Rltb x 0) eqn:L.
  - apply Rltb_true in L. rewrite (Rabs_left x L) in Hh. exists (IZR (- n) / 1000). split; [exists (- n)%Z; auto|].
    rewrite opp_IZR. apply Rabs_le. lra.
  - apply Rltb_false in L. rewrite (Rabs_pos_eq x L) in Hh. exists (IZR n / 1000). split; [exists n; auto|]. apply Rabs_le. lra.
Qed.

Definition d8 : R := 5 / 10 ^ 9.

(** a point of a section at height [c] of the model, up to rounding *)
Record section_pt (m : Rmesh) (c : R) (q : Rpoint) : Prop := {
  sp_x : forall lo hi, (forall a, In a (vertices m) -> lo <= X a <= hi) -> lo - d8 <= X q <= hi + d8;
  sp_y : forall lo hi, (forall a, In a (vertices m) -> lo <= Y a <= hi) -> lo - d8 <= Y q <= hi + d8;
  sp_z : c - d8 <= Z3 q <= c + d8
}.

Lemma conv2 (t a b lo hi : R) : 0 <= t <= 1 -> lo <= a <= hi -> lo <= b <= hi -> lo <= a + t * (b - a) <= hi.
Proof. intros. nra. Qed.
Lemma conv3 (u v w a b c lo hi : R) : 0 <= u -> 0 <= v -> 0 <= w -> u + v + w = 1 ->
  lo <= a <= hi -> lo <= b <= hi -> lo <= c <= hi -> lo <= u * a + v * b + w * c <= hi.
Proof.
  intros. replace lo with (u * lo + v * lo + w * lo) by (transitivity ((u + v + w) * lo); [ring|rewrite H2; ring]).
  replace hi with (u * hi + v * hi + w * hi) at 1 by (transitivity ((u + v + w) * hi); [ring|rewrite H2; ring]).
  split; nra.
Qed.

Lemma section_seg m c a b q : section_pt m c a -> section_pt m c b -> on_seg a b q -> section_pt m c q.
Proof.
  intros [ax ay az] [bx by_ bz] (t & T & ->). split.
  - intros lo hi H. specialize (ax lo hi H). specialize (bx lo hi H). unfold along, X. cbn [px]. apply conv2; assumption.
  - intros lo hi H. specialize (ay lo hi H). specialize (by_ lo hi H). unfold along, Y. cbn [py]. apply conv2; assumption.
  - unfold along, Z3. cbn [pz]. apply conv2; assumption.
Qed.

Lemma section_tri (m : Rmesh) c t e q : In t m -> in_tri (t1 t) (t2 t) (t3 t) e -> Z3 e = c -> within (5 / 10 ^ 9) q e -> section_pt m c q.
Proof.
  intros Ht (u & v & w & Hu & Hv & Hw & S & ->) Hz (Wx & Wy & Wz).
  fold d8 in Wx, Wy, Wz. apply Rabs_le_inv in Wx, Wy, Wz.
  assert (Vt : forall p, p = t1 t \/ p = t2 t \/ p = t3 t -> In p (vertices m)).
  { intros p Hp. unfold vertices. apply in_flat_map. exists t. split; [exact Ht|]. cbn. intuition. }
  split.
  - intros lo hi H. assert (K : lo <= X (comb3 u v w (t1 t) (t2 t) (t3 t)) <= hi).
    { unfold comb3, X at 1 2. cbn [px]. apply conv3; auto 6. }
    lra.
  - intros lo hi H. assert (K : lo <= Y (comb3 u v w (t1 t) (t2 t) (t3 t)) <= hi).
    { unfold comb3, Y at 1 2. cbn [py]. apply conv3; auto 6. }
    lra.
  - lra.
Qed.

(** moved by the origin flags *)
Definition moved (o : Rvector) (p : Rpoint) : Rpoint := P3 (A := ArithR) (X p + vx o) (Y p + vy o) (Z3 p + vz o).
Lemma vertices_shift (m : Rmesh) o : vertices (m_shift m o) = map (moved o) (vertices m).
Proof.
  unfold vertices, m_shift. rewrite flat_map_concat_map, flat_map_concat_map, concat_map, !map_map. f_equal.
Qed.

Lemma unit_axisZ : unit_of (axisZ (A := ArithR)) (axisZ (A := ArithR)).
Proof. unfold unit_of, axisZ. cbn [vx vy vz]. rcbn. split; [ring|]. exists 1. repeat split; lra. Qed.
Lemma Rdot_axisZ (p : Rpoint) : Rdot p (axisZ (A := ArithR)) = Z3 p.
Proof. unfold Rdot, axisZ, Z3. cbn [vx vy vz]. rcbn. ring. Qed.

(** every vertex of a filled layer is a point of the section *)
Lemma filled_section U (m : Rmesh) (s : @settings ArithR) mn mx fp ff ls out :
  legal U -> m <> [] -> Forall (fun p => in_range (Z3 p)) (vertices m) ->
  lowest axisZ (vertices m) mn -> highest axisZ (vertices m) mx -> 0 < s_layerHeight s -> mn < mx ->
  s_supportsOn s = false ->
  sliceByVector U m axisZ s = Ok ls -> fillLayers U ls fp ff s = Ok out ->
  exists d, (d <= 1)%nat /\ forall j l, nth_error out j = Some l ->
    (j + d < Z.to_nat (layers_count (mx - mn) (s_layerHeight s)))%nat /\
    forall p q, In p (layer_paths l) -> In q p -> section_pt m (layer_height_at mn mx (s_layerHeight s) (j + d)) q.
Proof.
  intros HU Hm Hr Hlo Hhi HL Hh Hs E F.
  assert (Hr' : Forall (fun p => in_range (Rdot p axisZ)) (vertices m)).
  { eapply Forall_impl; [|exact Hr]. cbn beta. intros p. now rewrite Rdot_axisZ. }
  destruct (slice_exact U m axisZ axisZ s mn mx HU Hm unit_axisZ Hr' Hlo Hhi HL Hh) as (sup & full & _ & _ & Hlen & H4 & H5).
  destruct (C23_points U m axisZ axisZ s mn mx HU Hm unit_axisZ Hr' Hlo Hhi HL Hh) as (sup' & Hsup & Hp).
  specialize (Hsup Hs). subst sup'. cbn [app] in Hp.
  pose proof (bare_layers U m axisZ s ls HU E) as B.
  pose proof (trim_spec full) as T. rewrite <- H5, E in T. destruct T as (a & b & Ef & La & _).
  exists (length a). split; [exact La|]. intros j l' Hj'.
  destruct (C47_fill (A := ArithR) U ls fp ff s) as (out' & F' & S & K).
  { eapply Forall_impl; [|exact B]. cbn beta. intros l (_ & _ & ->). constructor. }
  rewrite F in F'. injection F' as <-.
  destruct (nth_error ls j) as [l|] eqn:Hj.
  2:{ exfalso. apply nth_error_None in Hj. assert (length ls = length out) by (clear -S; induction S; cbn; congruence).
      assert (j < length out)%nat by (apply nth_error_Some; congruence). lia. }
  assert (Hl : In l ls) by (eapply nth_error_In; eauto).
  assert (Hf : nth_error full (j + length a) = Some l).
  { rewrite Ef, nth_error_app2 by lia. replace (j + length a - length a)%nat with j by lia. rewrite nth_error_app1; [exact Hj|].
    apply nth_error_Some. congruence. }
  destruct (H4 _ _ Hf) as (O & _).
  destruct (Hp ls l E Hl) as (_ & i & Oi & Hi & Pts). assert (i = j + length a)%nat by (rewrite O in Oi; lia). subst i.
  split; [exact Hi|].
  set (c := layer_height_at mn mx (s_layerHeight s) (j + length a)) in *.
  assert (C : forall p q, In p (l_paths l) -> In q p -> section_pt m c q).
  { intros p q H1 H2. destruct (Pts p q H1 H2) as (t & e & Ht & He & Hz & W). rewrite Rdot_axisZ in Hz.
    exact (section_tri m c t e q Ht He Hz W). }
  rewrite Forall_forall in B. destruct (B l Hl) as (B1 & B2 & B3).
  destruct (K j l l' Hj Hj') as (pls & _ & _ & _ & Fl & _).
  assert (SB : same_but_fill l l').
  { clear -S Hj Hj'. revert j Hj Hj'. induction S as [|x y ls out H S IH]; intros [|j]; cbn; try discriminate; [|apply IH].
    intros [= <-] [= <-]. exact H. }
  destruct SB as (_ & _ & P1 & P2 & P3).
  intros p q H1 H2. unfold layer_paths in H1. rewrite !in_app_iff in H1.
  rewrite <- P1, <- P2, <- P3, B1, B2 in H1. cbn [oslice In] in H1. destruct H1 as [H1|[[]|[[]|H1]]].
  - exact (C p q H1 H2).
  - rewrite Forall_forall in Fl. destruct (Fl p H1) as (f & Hf1 & Hf2). rewrite B3 in Hf1. cbn [app] in Hf1.
    apply in_flat_map in Hf1. destruct Hf1 as (pl & _ & Hf1).
    destruct (C49_on_contours U _ pl f HU Hf1) as (x & y & -> & Ox & _ & Oy & _).
    assert (Cp : contours l = l_paths l) by (unfold contours; now rewrite B2).
    rewrite Cp in Ox, Oy.
    assert (G : forall q, on_contour (l_paths l) q -> section_pt m c q).
    { intros r (p' & l1 & u & v & l2 & Hp' & -> & Os). eapply section_seg; [| |exact Os]; eapply C; try exact Hp'; rewrite in_app_iff; right; cbn; auto. }
    assert (In q [x; y]) by (destruct Hf2 as [-> | ->]; [exact H2|]; cbn in H2 |- *; tauto).
    destruct H as [<-|[<-|[]]]; apply G; assumption.
Qed.

(** In three-axis mode without supports every print move of layer k of the file runs at the
    height of the k-th cut (the (k+1)-th if the first one was empty) and within the bounds of
    the model as moved by the origin flags, up to the written decimals. *)
Theorem C92_three_axes : forall (X0 : outside) (f : flags) out mn mx,
  good_outside X0 -> legal (ex_U X0) -> fl_slicingType f = "3axes"%string -> fl_supportsOn f = false ->
  0 < fl_layerHeight f -> ex_mesh X0 <> [] ->
  let model := map (moved (fl_origin f)) (vertices (ex_mesh X0)) in
  Forall (fun p => in_range (Z3 p)) model -> lowest axisZ model mn -> highest axisZ model mx -> mn < mx ->
  goosli X0 f = Ok out ->
  exists head t foot is d,
    out = (head ++ t ++ foot)%string /\ read_gcode t = Some is /\ (d <= 1)%nat /\
    forall m0, Forall (fun e => is_print (ev_instr e) = true ->
      exists k, c_layer (ev_at e) = Some (N.of_nat k) /\
        (k + d < Z.to_nat (layers_count (mx - mn) (fl_layerHeight f)))%nat /\
        forall m, m = ev_before e \/ m = ev_after e ->
          between (fun p => X p + vx (fl_origin f)) (ex_mesh X0) (m_x m) /\
          between (fun p => Y p + vy (fl_origin f)) (ex_mesh X0) (m_y m) /\
          near (layer_height_at mn mx (fl_layerHeight f) (k + d)) (m_z m)) (events ctx0 m0 is).
Proof.
  intros X0 f out mn mx G HU T3 Hs HL Hne model Hr Hlo Hhi Hh H.
  destruct (goosli_inv X0 f out G H) as (g & t & hl & fl & is & s' & Es & E & -> & I & R & _ & _).
  unfold slicing in Es. rewrite T3 in Es. cbn [String.eqb Ascii.eqb Bool.eqb] in Es. unfold sliceByVectorToGcode in Es.
  destruct (sliceByVector (ex_U X0) (m_shift (ex_mesh X0) (fl_origin f)) axisZ (settingsOf (ex_now X0) f)) as [ls| |] eqn:El; cbn [rbind] in Es; try discriminate Es.
  destruct (calcFillPlanes (m_shift (ex_mesh X0) (fl_origin f)) (settingsOf (ex_now X0) f)) as [fp ff].
  destruct (fillLayers (ex_U X0) ls fp ff (settingsOf (ex_now X0) f)) as [lf| |] eqn:Ef; cbn [rbind] in Es; try discriminate Es.
  injection Es as <-.
  unfold model in Hr, Hlo, Hhi. rewrite <- vertices_shift in Hr, Hlo, Hhi.
  assert (Hne' : m_shift (ex_mesh X0) (fl_origin f) <> []) by (destruct (ex_mesh X0); [contradiction|discriminate]).
  destruct (filled_section (ex_U X0) (m_shift (ex_mesh X0) (fl_origin f)) (settingsOf (ex_now X0) f) mn mx fp ff ls lf
    HU Hne' Hr Hlo Hhi HL Hh Hs El Ef) as (d & Hd & K).
  exists hl, t, fl, is, d. split; [reflexivity|]. split; [exact R|]. split; [exact Hd|].
  intros m0. pose proof (cmds_among _ _ _ _ _ ctx0 m0 I (Z.le_refl 0)) as W.
  eapply Forall_impl; [|exact W]. intros e He Hp. destruct (He Hp) as (j & l & C1 & C2 & C3).
  cbn [g_addLayers g_add newGcode g_cmds flat_map cmd_layers app] in C2. rewrite app_nil_r in C2.
  destruct (K j l C2) as [K1 K2]. exists j. split; [exact C1|]. split; [exact K1|].
  destruct (C3 Hp) as (p & Hpl & A1 & A2). apply section_layer in Hpl.
  assert (Q : forall m, among p m ->
    between (fun p => X p + vx (fl_origin f)) (ex_mesh X0) (m_x m) /\
    between (fun p => Y p + vy (fl_origin f)) (ex_mesh X0) (m_y m) /\
    near (layer_height_at mn mx (fl_layerHeight f) (j + d)) (m_z m)).
  { intros m ((qx & Ix & Ex) & (qy & Iy & Ey) & (qz & Iz & Ez)). rewrite Ex, Ey, Ez.
    destruct (V_written (px qx)) as (x & Wx & Bx). destruct (V_written (py qy)) as (y & Wy & By). destruct (V_written (pz qz)) as (z & Wz & Bz).
    apply Rabs_le_inv in Bx, By, Bz.
    assert (Vs : forall a, In a (vertices (m_shift (ex_mesh X0) (fl_origin f))) -> exists b, In b (vertices (ex_mesh X0)) /\ moved (fl_origin f) b = a).
    { intros a Ha. rewrite vertices_shift in Ha. apply in_map_iff in Ha. destruct Ha as (b & Hb1 & Hb2). eauto. }
    split; [|split].
    - exists x. split; [exact Wx|]. intros lo hi Hb.
      pose proof (sp_x _ _ _ (K2 p qx Hpl Ix) lo hi) as B. 
      assert (lo - d8 <= X qx <= hi + d8) by (apply B; intros a Ha; destruct (Vs a Ha) as (b & Hb1 & <-); exact (Hb b Hb1)).
      unfold slack, d8, X in *. lra.
    - exists y. split; [exact Wy|]. intros lo hi Hb.
      pose proof (sp_y _ _ _ (K2 p qy Hpl Iy) lo hi) as B. 
      assert (lo - d8 <= Y qy <= hi + d8) by (apply B; intros a Ha; destruct (Vs a Ha) as (b & Hb1 & <-); exact (Hb b Hb1)).
      unfold slack, d8, Y in *. lra.
    - exists z. split; [exact Wz|]. pose proof (sp_z _ _ _ (K2 p qz Hpl Iz)) as B.
      cbn [settingsOf s_layerHeight] in B. unfold slack, d8, Z3 in *. apply Rabs_le. lra. }
  intros m [-> | ->]; apply Q; assumption.
Qed.

(** ** C93 Three-axis mode succeeds *)
Lemma join_nonempty {A : Arith} srt (ls : list path) out : (forall l, Permutation l (srt l)) ->
  Forall (fun q : path => q <> []) ls -> joinPaths3AndMinimize srt ls = Ok out -> Forall (fun q : path => q <> []) out.
Proof.
  intros Hs Hl. unfold joinPaths3AndMinimize. destruct (JoinProofs.joinPaths3_ok srt ls Hs Hl) as (o & -> & (parts & P & F)).
  cbn [rbind]. intros [= <-]. apply Forall_forall. intros p Hp. apply in_map_iff in Hp. destruct Hp as (r & <- & Hr).
  assert (N : r <> []).
  { clear -F Hr. induction F as [|a b o parts H F IH]; [destruct Hr|]. destruct Hr as [<-|Hr]; [|auto]. now destruct (chain_sides _ _ _ H) as (_ & N & _). }
  destruct r as [|x r]; [contradiction|]. now destruct (minimize_ok (x :: r) x N) as (K & _).
Qed.

Lemma slice_nonempty {A : Arith} U m Zv s ls : legal U -> sliceByVector U m Zv s = Ok ls ->
  Forall (fun l => Forall (fun q : path => q <> []) (l_paths l)) ls.
Proof.
  intros HU E. destruct m as [|t m]; [injection E as <-; constructor|].
  destruct (C25_trim A U (t :: m) Zv s ls HU ltac:(discriminate) E) as (jobs & full & a & b & _ & F & _ & Ef & _).
  assert (G : Forall (fun l => Forall (fun q : path => q <> []) (l_paths l)) full).
  { clear -HU F. induction F as [|j l jobs full H F IH]; constructor; [|exact IH].
    destruct (worker_ok U j (lg_ends U HU)) as (o & J & W). rewrite W in H. injection H as <-. cbn [l_paths].
    exact (join_nonempty _ _ _ (lg_ends U HU) (sections_nonempty _ _) J). }
  rewrite Ef in G. apply Forall_app in G. destruct G as [_ G]. apply Forall_app in G. exact (proj1 G).
Qed.

(** the command succeeds in three-axis mode exactly if slicing does *)
Theorem C93_three_axes : forall (A : Arith) (L : LtOK A) (T : TextOK A) (X0 : outside) (f : flags),
  good_outside X0 -> legal (ex_U X0) -> fl_slicingType f = "3axes"%string ->
  let r := sliceByVector (ex_U X0) (m_shift (ex_mesh X0) (fl_origin f)) axisZ (settingsOf (ex_now X0) f) in
  (exists ls, r = Ok ls) <-> exists out, goosli X0 f = Ok out.
Proof.
  intros A L T X0 f (P1 & P2 & D & Hh & Hf) HU T3 r. unfold goosli, slicing. rewrite T3. cbn [String.eqb Ascii.eqb Bool.eqb].
  unfold sliceByVectorToGcode. fold r.
  destruct r as [ls| |] eqn:El; cbn [rbind].
  2,3: split; [intros [ls K]; discriminate K|intros [o K]; discriminate K].
  split; [intros _|eauto].
  destruct (calcFillPlanes (m_shift (ex_mesh X0) (fl_origin f)) (settingsOf (ex_now X0) f)) as [fp ff].
  pose proof (bare_layers _ _ _ _ _ HU El) as B. pose proof (slice_nonempty _ _ _ _ _ HU El) as N.
  destruct (C47_fill (ex_U X0) ls fp ff (settingsOf (ex_now X0) f)) as (lf & F & S & K).
  { eapply Forall_impl; [|exact B]. cbn beta. intros l (_ & _ & ->). constructor. }
  rewrite F. cbn [rbind]. set (g := g_addLayers _ _).
  destruct (proj1 (proj2 (C61_output_total g))) as (t & Et).
  { unfold g, cmds_paths. cbn [g_addLayers g_add newGcode g_cmds flat_map cmd_layers app]. rewrite app_nil_r.
    intros Hin. apply in_flat_map in Hin. destruct Hin as (l' & Hl' & Hin).
    apply In_nth_error in Hl'. destruct Hl' as (j & Hj').
    assert (Hj : exists l, nth_error ls j = Some l /\ same_but_fill l l').
    { clear -S Hj'. revert j Hj'. induction S as [|x y ls out H S IH]; intros [|j]; cbn; try discriminate; [|apply IH].
      intros [= <-]. eauto. }
    destruct Hj as (l & Hj & SB). destruct SB as (_ & _ & Q1 & Q2 & Q3).
    assert (Hl : In l ls) by (eapply nth_error_In; eauto).
    rewrite Forall_forall in B, N. destruct (B l Hl) as (B1 & B2 & B3). pose proof (N l Hl) as Nl. rewrite Forall_forall in Nl.
    destruct (K j l l' Hj Hj') as (pls & _ & _ & _ & Fl & _).
    unfold layer_paths in Hin. rewrite !in_app_iff in Hin.
    rewrite <- Q1, <- Q2, <- Q3, B1, B2 in Hin. cbn [oslice In] in Hin. destruct Hin as [H1|[[]|[[]|H1]]].
    - now apply (Nl [] H1).
    - rewrite Forall_forall in Fl. destruct (Fl [] H1) as (h & Hh1 & Hh2). rewrite B3 in Hh1. cbn [app] in Hh1.
      apply in_flat_map in Hh1. destruct Hh1 as (pl & _ & Hh1).
      destruct (segments_of_hits (ex_U X0) (contours l) pl) as (Fp & _). rewrite Forall_forall in Fp.
      destruct (Fp h Hh1) as (a & b & ->). destruct Hh2 as [Q|Q]; discriminate Q. }
  destruct (C75_whole_file (ex_order1 X0) (ex_order2 X0) g (settingsOf (ex_now X0) f) t P1 P2 D Et) as (out & _ & _ & _ & C & _).
  exists out. rewrite Hh, Hf. exact C.
Qed.

(** in exact arithmetic it fails only on a model no taller than one layer that the plane half
    way up does not meet *)
Theorem C93_exact : forall (X0 : outside) (f : flags) mn mx,
  good_outside X0 -> legal (ex_U X0) -> fl_slicingType f = "3axes"%string -> fl_supportsOn f = false ->
  0 < fl_layerHeight f -> ex_mesh X0 <> [] ->
  let model := map (moved (fl_origin f)) (vertices (ex_mesh X0)) in
  Forall (fun p => in_range (Z3 p)) model -> lowest axisZ model mn -> highest axisZ model mx -> mn < mx ->
  (exists out, goosli X0 f = Ok out) <->
  (fl_layerHeight f < mx - mn \/
   sections (plane_at axisZ ((mn + mx) / 2)) (m_shift (ex_mesh X0) (fl_origin f)) <> []).
Proof.
  intros X0 f mn mx G HU T3 Hs HL Hne model Hr Hlo Hhi Hh.
  rewrite <- (C93_three_axes ArithR _ _ X0 f G HU T3). cbv zeta.
  unfold model in Hr, Hlo, Hhi. rewrite <- vertices_shift in Hr, Hlo, Hhi.
  assert (Hne' : m_shift (ex_mesh X0) (fl_origin f) <> []) by (destruct (ex_mesh X0); [contradiction|discriminate]).
  assert (Hr' : Forall (fun p => in_range (Rdot p axisZ)) (vertices (m_shift (ex_mesh X0) (fl_origin f)))).
  { eapply Forall_impl; [|exact Hr]. cbn beta. intros p. now rewrite Rdot_axisZ. }
  destruct (C24_panics_iff (ex_U X0) _ axisZ axisZ (settingsOf (ex_now X0) f) mn mx HU Hne' unit_axisZ Hr' Hlo Hhi HL Hh) as (sup & S0 & I & D).
  specialize (S0 Hs). subst sup. cbn [app] in I. cbn [settingsOf s_layerHeight] in I.
  destruct (sliceByVector _ _ _ _) as [ls| |].
  - split; [intros _|eauto]. destruct (Rlt_dec (fl_layerHeight f) (mx - mn)) as [K|K]; [now left|]. right. intros Q.
    assert (Ok ls = Panic) by (apply I; split; [lra|exact Q]). discriminate.
  - destruct (proj1 I eq_refl) as [I1 I2]. split; [intros [? K]; discriminate K|]. intros [K|K]; [lra|contradiction].
  - contradiction.
Qed.

(** ** Cases *)
Section Exact.
Local Existing Instance ArithR.
(** the tetrahedron of Properties_Slicer.v, moved by (5, 0, 2), in layers of 0.3 *)
Definition exR_flags : @flags ArithR :=
  Flags (V3 (A := ArithR) 5 0 2) (P3 (A := ArithR) 0 0 0) 1 (3 / 10) (8 / 10) 20 3 3 60 200 50 25 40 true (4 / 10) "Lines" false 30 1
    "planes" "3axes" 30 (V3 (A := ArithR) 0 0 1) false 1 (175 / 100) 1 3.
Definition exR_outside : @outside ArithR :=
  Outside (A := ArithR) tetraR None (Some header_template) (Some footer_template) "02 Jan 06 15:04 MST" (@rev _) (fun m => m) env0
    (fun _ => 0) (fun _ ts => ts) (fun _ _ => Panic) 10.
Example exR_good : good_outside exR_outside.
Proof.
  split; [intros m; apply Permutation_rev|]. split; [intros m; apply Permutation_refl|]. split; [split; reflexivity|]. split; reflexivity.
Qed.
Lemma exR_moved p : In p (map (moved (fl_origin exR_flags)) (vertices tetraR)) -> Z3 p = 2 \/ Z3 p = 3.
Proof.
  intros Hp. apply in_map_iff in Hp. destruct Hp as (q & <- & Hq). destruct (tetra_heights q Hq) as [K|K];
    unfold Rdot in K; cbn [vx vy vz] in K; rcbn; unfold moved, Z3; cbn [pz exR_flags fl_origin vz]; rcbn; lra.
Qed.
Example exR_range : Forall (fun p => in_range (Z3 p)) (map (moved (fl_origin exR_flags)) (vertices tetraR)).
Proof.
  apply Forall_forall. intros p Hp. unfold in_range.
  assert (3 <= IZR ((2 ^ 53 - 1) * 2 ^ 971)) by (apply IZR_le; vm_compute; discriminate).
  destruct (exR_moved p Hp) as [-> | ->]; rewrite Rabs_pos_eq; lra.
Qed.
Example exR_low : lowest axisZ (map (moved (fl_origin exR_flags)) (vertices tetraR)) 2.
Proof.
  split.
  - exists (moved (fl_origin exR_flags) (rp 0 0 0)). split; [apply in_map; cbn; auto|]. rewrite Rdot_axisZ. unfold moved, rp, Z3. cbn [pz exR_flags fl_origin vz]. rcbn. lra.
  - intros p Hp. rewrite Rdot_axisZ. destruct (exR_moved p Hp) as [-> | ->]; lra.
Qed.
Example exR_high : highest axisZ (map (moved (fl_origin exR_flags)) (vertices tetraR)) 3.
Proof.
  split.
  - exists (moved (fl_origin exR_flags) (rp 0 0 1)). split; [apply in_map; cbn; auto 10|]. rewrite Rdot_axisZ. unfold moved, rp, Z3. cbn [pz exR_flags fl_origin vz]. rcbn. lra.
  - intros p Hp. rewrite Rdot_axisZ. destruct (exR_moved p Hp) as [-> | ->]; lra.
Qed.
(** every hypothesis of C92 and C93 is met, the command succeeds, and there are four layers *)
Example exR_goosli : exists out, goosli exR_outside exR_flags = Ok out.
Proof.
  apply (C93_exact exR_outside exR_flags 2 3 exR_good env0_legal eq_refl eq_refl).
  - cbn [exR_flags fl_layerHeight]. rcbn. lra.
  - discriminate.
  - exact exR_range.
  - exact exR_low.
  - exact exR_high.
  - lra.
  - left. cbn [exR_flags fl_layerHeight]. rcbn. lra.
Qed.
Example exR_count : layers_count (3 - 2) (fl_layerHeight exR_flags) = 4%Z.
Proof. unfold layers_count. apply Zceil_imp. cbn. lra. Qed.
End Exact.

(** the float64 run of Properties_Main.v prints at least twelve moves; C91 and C93 speak of it *)
Example exF_goosli : exists out is, goosli ex_outside (ex_flags "3axes" false) = Ok out /\ read_file out = Some is /\ (12 <= prints is)%nat.
Proof. exact ex_goosli. Qed.

Print Assumptions C91_where.
Print Assumptions C92_three_axes.
Print Assumptions C93_three_axes.
Print Assumptions C93_exact.
