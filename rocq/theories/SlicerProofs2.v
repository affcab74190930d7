(** * Slicing in exact arithmetic (C22-C25) *)
From Coq Require Import ZArith Reals Lra Lia List Bool Permutation Sorted PeanoNat.
From Flocq Require Import Core.Raux.
From Verif Require Import Arith ArithR Prim Path PathClaims JoinProofs MinProofs GeomSpec GeomProofs MeshProofs
  Helpers HelperProofs Slicer SlicerClaims SlicerProofs Properties_Geom Properties_Path.
Import ListNotations.
Close Scope Z_scope.
Close Scope num_scope.
Local Open Scope R_scope.

(** points of joined and simplified paths are points of the pieces *)
Lemma join_points {A : Arith} srt (ls : list path) out : (forall l, Permutation l (srt l)) ->
  Forall (fun q : path => q <> []) ls -> joinPaths3AndMinimize srt ls = Ok out ->
  forall p q, In p out -> In q p -> In q (concat ls).
Proof.
  intros Hs Hl. unfold joinPaths3AndMinimize. destruct (joinPaths3_ok srt ls Hs Hl) as (o & -> & (parts & P & F)).
  cbn [rbind]. intros [= <-] p q Hp Hq. apply in_map_iff in Hp. destruct Hp as (r & <- & Hr).
  assert (C : exists ps, In ps parts /\ chain pt_equal r ps).
  { clear -F Hr. induction F as [|a b o parts H F IH]; [destruct Hr|]. destruct Hr as [<-|Hr]; [exists b; cbn; auto|].
    destruct (IH Hr) as (ps & H1 & H2). exists ps. cbn. auto. }
  destruct C as (ps & Hps & C). destruct (chain_sides _ _ _ C) as (_ & N & I).
  assert (Hq' : In q r) by (destruct (minimize_ok r (hd q r) N) as (_ & I2 & _); exact (I2 q Hq)).
  apply I, in_concat in Hq'. destruct Hq' as (x & Hx & Hqx). apply in_concat. exists x. split; [|exact Hqx].
  apply (Permutation_in x P), in_concat. eauto.
Qed.

(** ** The direction *)
Definition unit_of (Zv u : Rvector) : Prop :=
  vx u * vx u + vy u * vy u + vz u * vz u = 1 /\
  exists k : R, 0 < k /\ vx Zv = k * vx u /\ vy Zv = k * vy u /\ vz Zv = k * vz u.

Lemma normalize_unit (Zv u : Rvector) : unit_of Zv u -> normalize Zv = u.
Proof.
  intros (U & k & Hk & E1 & E2 & E3). destruct Zv as [a b c], u as [x y z]. cbn in *. subst.
  unfold normalize, vlen, vlen2. cbn [vx vy vz]. rcbn.
  replace (k * x * (k * x) + k * y * (k * y) + k * z * (k * z)) with (k * k)
    by (transitivity (k * k * (x * x + y * y + z * z)); [rewrite U; ring|ring]).
  rewrite sqrt_square by lra. destruct (Reqb k 0) eqn:E; [rbool; lra|].
  f_equal; rcbn; field; lra.
Qed.
Lemma unit_exists (Zv : Rvector) : vx Zv <> 0 \/ vy Zv <> 0 \/ vz Zv <> 0 -> exists u, unit_of Zv u.
Proof.
  destruct Zv as [a b c]. cbn. intros H.
  assert (P : 0 < a * a + b * b + c * c).
  { pose proof (Rle_0_sqr a). pose proof (Rle_0_sqr b). pose proof (Rle_0_sqr c). unfold Rsqr in *.
    destruct H as [H|[H|H]]; apply Rsqr_pos_lt in H; unfold Rsqr in H; lra. }
  set (k := sqrt (a * a + b * b + c * c)).
  assert (K : 0 < k) by (apply sqrt_lt_R0, P). assert (KK : k * k = a * a + b * b + c * c) by (apply sqrt_sqrt; lra).
  exists (V3 (A := ArithR) (a / k)%R (b / k)%R (c / k)%R). split; cbn.
  - transitivity ((a * a + b * b + c * c) / (k * k)); [field; lra|]. rewrite KK. field. lra.
  - exists k. split; [exact K|]. repeat split; rcbn; field; lra.
Qed.

(** ** Heights of triangles *)
Lemma minZ_le (t : Rtriangle) (u : Rvector) (z : R) : @nleb ArithR (t_minZ t u) z = true <->
  Rdot (t1 t) u <= z \/ Rdot (t2 t) u <= z \/ Rdot (t3 t) u <= z.
Proof.
  unfold t_minZ, dot, p2v, Rdot. cbn [vx vy vz]. rcbn. rewrite Rleb_true.
  repeat (unfold Rmin; destruct Rle_dec); lra.
Qed.
Lemma maxZ_ge (t : Rtriangle) (u : Rvector) (z : R) : @nleb ArithR z (t_maxZ t u) = true <->
  z <= Rdot (t1 t) u \/ z <= Rdot (t2 t) u \/ z <= Rdot (t3 t) u.
Proof.
  unfold t_maxZ, dot, p2v, Rdot. cbn [vx vy vz]. rcbn. rewrite Rleb_true.
  repeat (unfold Rmax; destruct Rle_dec); lra.
Qed.

Definition plane_at (u : Rvector) (c : R) : Rplane := Pl (A := ArithR) (P3 (A := ArithR) (c * vx u)%R (c * vy u)%R (c * vz u)%R) u.

Lemma sd_at (u : Rvector) c (q : Rpoint) : vx u * vx u + vy u * vy u + vz u * vz u = 1 -> sd (plane_at u c) q = Rdot q u - c.
Proof.
  intros U. unfold sd, plane_at, Rdot, X, Y, Z3. cbn [pl_p pl_n px py pz]. rcbn.
  transitivity (px q * vx u + py q * vy u + pz q * vz u - c * (vx u * vx u + vy u * vy u + vz u * vz u)); [ring|]. rewrite U. ring.
Qed.

Lemma above_none u c (t : Rtriangle) : vx u * vx u + vy u * vy u + vz u * vz u = 1 ->
  @nleb ArithR (t_minZ t u) c = false -> intersectTriangle (plane_at u c) t = None.
Proof.
  intros U H. apply C28_nil_one_side. left. rewrite !sd_at by exact U.
  destruct (Rlt_dec c (Rdot (t1 t) u)); [|exfalso; enough (@nleb ArithR (t_minZ t u) c = true) by congruence; apply minZ_le; lra].
  destruct (Rlt_dec c (Rdot (t2 t) u)); [|exfalso; enough (@nleb ArithR (t_minZ t u) c = true) by congruence; apply minZ_le; lra].
  destruct (Rlt_dec c (Rdot (t3 t) u)); [|exfalso; enough (@nleb ArithR (t_minZ t u) c = true) by congruence; apply minZ_le; lra].
  lra.
Qed.
Lemma below_none u c (t : Rtriangle) : vx u * vx u + vy u * vy u + vz u * vz u = 1 ->
  @nleb ArithR c (t_maxZ t u) = false -> intersectTriangle (plane_at u c) t = None.
Proof.
  intros U H. apply C28_nil_one_side. right. rewrite !sd_at by exact U.
  destruct (Rlt_dec (Rdot (t1 t) u) c); [|exfalso; enough (@nleb ArithR c (t_maxZ t u) = true) by congruence; apply maxZ_ge; lra].
  destruct (Rlt_dec (Rdot (t2 t) u) c); [|exfalso; enough (@nleb ArithR c (t_maxZ t u) = true) by congruence; apply maxZ_ge; lra].
  destruct (Rlt_dec (Rdot (t3 t) u) c); [|exfalso; enough (@nleb ArithR c (t_maxZ t u) = true) by congruence; apply maxZ_ge; lra].
  lra.
Qed.

(** ** Extent, number of layers *)
Lemma dot_Rdot (p : Rpoint) (u : Rvector) : dot (p2v p) u = Rdot p u.
Proof. reflexivity. Qed.

Lemma extent (m : Rmesh) (u : Rvector) mn mx : m <> [] ->
  Forall (fun p => in_range (Rdot p u)) (vertices m) ->
  lowest u (vertices m) mn -> highest u (vertices m) mx -> m_minMaxZ m u = (mn, mx).
Proof.
  intros N F [(p & Hp & Ep) L] [(q & Hq & Eq) H].
  destruct (minMax_ok (M := MinMaxR) u m N F) as [[(a & Ha & Ea) La] [(b & Hb & Eb) Hbb]].
  destruct (m_minMaxZ m u) as [x y]. cbn [fst snd] in *.
  unfold height in *. rewrite !dot_Rdot in *.
  pose proof (La p Hp) as K1. pose proof (Hbb q Hq) as K2. rewrite !dot_Rdot in *.
  apply Rleb_true in K1, K2. specialize (L a Ha). specialize (H b Hb).
  f_equal; cbn in *; lra.
Qed.

Definition layers_count (h LH : R) : Z := Zceil (h / LH).
Definition layer_height_at (mn mx LH : R) (i : nat) : R :=
  mn + (INR i + / 2) * ((mx - mn) / IZR (layers_count (mx - mn) LH)).

Lemma layer_number_R (m : Rmesh) (u : Rvector) (s : @settings ArithR) mn mx :
  m_minMaxZ m u = (mn, mx) -> layer_number m u s = layers_count (mx - mn) (s_layerHeight s).
Proof. unfold layer_number, layers_count. intros ->. rcbn. apply Ztrunc_IZR. Qed.

Lemma count_pos h LH : 0 < h -> 0 < LH -> (0 < layers_count h LH)%Z.
Proof.
  intros H1 H2. apply lt_IZR. eapply Rlt_le_trans; [|apply Zceil_ub]. now apply Rdiv_lt_0_compat.
Qed.

(** the planes of the sweep *)
Lemma steps_R (u : Rvector) (mn h q : R) : forall i : nat,
  at_step (A := ArithR) (vscale (A := ArithR) (vscale (A := ArithR) u h) q)
    (pshift (A := ArithR) (v2p (vscale (A := ArithR) u mn)) (vscale (A := ArithR) (vscale (A := ArithR) (vscale (A := ArithR) u h) q) (/ 2)%R)) i =
  P3 (A := ArithR) ((mn + (INR i + / 2) * (h * q)) * vx u)%R ((mn + (INR i + / 2) * (h * q)) * vy u)%R ((mn + (INR i + / 2) * (h * q)) * vz u)%R.
Proof.
  induction i as [|i IH].
  - change (at_step (A := ArithR) ?sh ?p 0) with p. cbn [INR]. unfold pshift, v2p, vscale. cbn [vx vy vz px py pz]. f_equal; rcbn; ring.
  - change (at_step (A := ArithR) ?sh ?p (S i)) with (pshift (A := ArithR) (at_step (A := ArithR) sh p i) sh). rewrite IH.
    rewrite S_INR. unfold pshift, vscale. cbn [vx vy vz px py pz]. f_equal; rcbn; ring.
Qed.

(** support triangles stand on the lowest plane *)
Lemma support_R U (m : Rmesh) (u : Rvector) (mn : R) s : vx u * vx u + vy u * vy u + vz u * vz u = 1 ->
  exists sup, supportTriangles U m u mn s = Ok sup /\ Forall (fun t => Rdot (t1 t) u = mn) sup.
Proof.
  intros Un. unfold supportTriangles.
  set (col := makeUndoubledLines _). set (pl := Pl _ _).
  assert (P : forall M : Rpoint, exists q, proectionPointToPlane pl M = Ok q /\ Rdot q u = mn).
  { intros M. unfold proectionPointToPlane. cbn [nisnan ArithR]. eexists. split; [reflexivity|].
    unfold pl, Rdot, v2p, vscale. cbn [pl_n pl_p px py pz vx vy vz]. rcbn.
    rewrite Un. transitivity (vx u * (vx u * mn - px M) * (vx u * vx u + vy u * vy u + vz u * vz u) +
      vy u * (vy u * mn - py M) * (vx u * vx u + vy u * vy u + vz u * vz u) + vz u * (vz u * mn - pz M) * (vx u * vx u + vy u * vy u + vz u * vz u) +
      (px M * vx u + py M * vy u + pz M * vz u)); [field|]. rewrite Un.
    transitivity ((vx u * vx u + vy u * vy u + vz u * vz u) * mn); [ring|]. rewrite Un. ring. }
  assert (L : exists sl, makeSupportLines col pl = Ok sl /\ Forall (fun l => Rdot (lp1 l) u = mn) sl).
  { unfold makeSupportLines. clear -P. induction col as [|l col IH]; cbn [rmap]; [exists []; auto|].
    destruct IH as (sl & E & F). destruct (P (lp1 l)) as (a & Ea & Ha). destruct (P (lp2 l)) as (b & Eb & Hb).
    rewrite Ea, Eb. cbn [rbind]. rewrite E. cbn. exists (L2 a b :: sl). split; [reflexivity|]. constructor; auto. }
  destruct L as (sl & E & F). rewrite E. cbn [rbind]. eexists. split; [reflexivity|].
  apply Forall_forall. intros t Ht. apply in_flat_map in Ht. destruct Ht as ([a b] & Hab & Ht).
  apply in_combine_l in Hab. rewrite Forall_forall in F. specialize (F a Hab).
  apply in_app_iff in Ht.
  destruct Ht as [Ht|Ht]; (destruct intersectTriangles in Ht; [|destruct Ht]; destruct Ht as [<-|[]]; exact F).
Qed.

Lemma triangle_plain (t : Rtriangle) (u : Rvector) : plain (t_minZ t u).
Proof. unfold plain. apply Rleb_true. lra. Qed.

(** ** All layers before trimming *)
Definition layer_of U (u : Rvector) (pieces : Rmesh) (c : nat -> R) (i : nat) (l : layer) : Prop :=
  l_order l = Z.of_nat i /\ l_norm l = u /\
  exists segs, Permutation segs (sections (plane_at u (c i)) pieces) /\
    joinPaths3AndMinimize (u_ends U) segs = Ok (l_paths l).

Theorem jobs_exact_sup U (m : Rmesh) (Zv u : Rvector) (s : @settings ArithR) (mn mx : R) :
  legal U -> m <> [] -> unit_of Zv u ->
  Forall (fun p => in_range (Rdot p u)) (vertices m) ->
  lowest u (vertices m) mn -> highest u (vertices m) mx ->
  0 < s_layerHeight s -> mn < mx ->
  let c := layer_height_at mn mx (s_layerHeight s) in
  exists sup jobs, (if s_supportsOn s then supportTriangles U m u mn s else Ok []) = Ok sup /\ Forall (fun t => Rdot (t1 t) u = mn) sup /\
    slicing_jobs U m Zv s = Ok jobs /\
    length jobs = Z.to_nat (layers_count (mx - mn) (s_layerHeight s)) /\
    forall i j, nth_error jobs i = Some j -> j_order j = Z.of_nat i /\ j_plane j = plane_at u (c i) /\
      pruned (fun t => @nleb ArithR (c i) (t_maxZ t u) = false)
        (filter (fun t => @nleb ArithR (t_minZ t u) (c i)) (sup ++ u_asc U u m)) (j_triangles j).
Proof.
  intros HU Hm Hu Hr Hlo Hhi HL Hh c.
  assert (En := normalize_unit _ _ Hu). destruct Hu as [Un _].
  assert (Ex := extent m u mn mx Hm Hr Hlo Hhi).
  assert (Ln := layer_number_R m u s mn mx Ex).
  set (n := layers_count (mx - mn) (s_layerHeight s)) in *.
  assert (Hn : (0 < n)%Z) by (apply count_pos; lra).
  assert (Hn' : 0 < IZR n) by (now apply IZR_lt).
  destruct (support_R U m u mn s Un) as (sup0 & Esup & Fsup).
  set (sup := if s_supportsOn s then sup0 else []).
  assert (Esup' : (if s_supportsOn s then supportTriangles U m u mn s else Ok []) = Ok sup)
    by (unfold sup; destruct (s_supportsOn s); auto).
  assert (Fsup' : Forall (fun t => Rdot (t1 t) u = mn) sup) by (unfold sup; destruct (s_supportsOn s); auto).
  set (sh := vscale (vscale u (mx - mn)%R) (1 / IZR n)%R).
  set (p0 := pshift (v2p (vscale u mn)) (vscale sh (/ 2)%R)).
  exists sup, (sweep u sh (Z.to_nat n) 0 p0 [] (sup ++ u_asc U u m)).
  assert (St : forall i, at_step (A := ArithR) sh p0 i = pl_p (plane_at u (c i))).
  { intros i. unfold sh, p0, sh. rewrite steps_R. unfold plane_at, c, layer_height_at. fold n. cbn [pl_p]. f_equal; rcbn; field; lra. }
  assert (Hz : forall i, hz (A := ArithR) u (at_step (A := ArithR) sh p0 i) = c i).
  { intros i. rewrite St. unfold hz. rewrite dot_Rdot. unfold plane_at, Rdot. cbn [pl_p px py pz].
    assert (K : forall x : R, x * vx u * vx u + x * vy u * vy u + x * vz u * vz u = x).
    { intros x. transitivity (x * (vx u * vx u + vy u * vy u + vz u * vz u)); [ring|]. rewrite Un. ring. }
    exact (K (c i)). }
  assert (Mono : forall i, c i <= c (S i)).
  { intros i. unfold c, layer_height_at. fold n. rewrite S_INR.
    assert (0 < (mx - mn) / IZR n) by (apply Rdiv_lt_0_compat; lra). nra. }
  assert (C0 : mn <= c 0%nat).
  { unfold c, layer_height_at. fold n. cbn [INR]. assert (0 < (mx - mn) / IZR n) by (apply Rdiv_lt_0_compat; lra). lra. }
  split; [exact Esup'|]. split; [exact Fsup'|].
  split.
  { unfold slicing_jobs. rewrite En, Ex, Ln. destruct (Z.ltb_spec n 0); [lia|]. rewrite Esup'. cbn [rbind]. do 2 f_equal.
    - unfold sh. rcbn. reflexivity.
    - unfold p0, sh. rcbn. replace (5 / 10) with (/ 2) by lra. reflexivity. }
  destruct (sweep_shape u sh (Z.to_nat n) 0 p0 [] (sup ++ u_asc U u m)) as [Len Sh].
  split; [exact Len|]. intros i j Hj. destruct (Sh i j Hj) as [O P]. split; [rewrite O; lia|].
  split; [rewrite P, St; reflexivity|].
  rewrite <- Hz.
  refine (sweep_handed u sh (Z.to_nat n) 0 p0 [] [] sup (u_asc U u m) _ _ _ _ _ _ i j Hj).
  - intros k _. rewrite !Hz. apply Rleb_true, Mono.
  - constructor.
  - constructor.
  - eapply Forall_impl; [|exact Fsup']. intros t Ht. change p0 with (at_step (A := ArithR) sh p0 0). rewrite Hz.
    apply minZ_le. left. rewrite Ht. exact C0.
  - apply Forall_forall. intros; apply triangle_plain.
  - apply (lg_sorted U HU). apply Forall_forall. intros; apply triangle_plain.
Qed.

Theorem jobs_exact U (m : Rmesh) (Zv u : Rvector) (s : @settings ArithR) (mn mx : R) :
  legal U -> m <> [] -> unit_of Zv u ->
  Forall (fun p => in_range (Rdot p u)) (vertices m) ->
  lowest u (vertices m) mn -> highest u (vertices m) mx ->
  0 < s_layerHeight s -> mn < mx ->
  let c := layer_height_at mn mx (s_layerHeight s) in
  exists sup jobs, (s_supportsOn s = false -> sup = []) /\ Forall (fun t => Rdot (t1 t) u = mn) sup /\
    slicing_jobs U m Zv s = Ok jobs /\
    length jobs = Z.to_nat (layers_count (mx - mn) (s_layerHeight s)) /\
    forall i j, nth_error jobs i = Some j -> j_order j = Z.of_nat i /\ j_plane j = plane_at u (c i) /\
      pruned (fun t => @nleb ArithR (c i) (t_maxZ t u) = false)
        (filter (fun t => @nleb ArithR (t_minZ t u) (c i)) (sup ++ u_asc U u m)) (j_triangles j).
Proof.
  intros HU Hm Hu Hr Hlo Hhi HL Hh c.
  destruct (jobs_exact_sup U m Zv u s mn mx HU Hm Hu Hr Hlo Hhi HL Hh) as (sup & jobs & H1 & R).
  exists sup, jobs. split; [|exact R]. intros E. rewrite E in H1. injection H1 as <-. reflexivity.
Qed.

Theorem slice_exact_sup U (m : Rmesh) (Zv u : Rvector) (s : @settings ArithR) (mn mx : R) :
  legal U -> m <> [] -> unit_of Zv u ->
  Forall (fun p => in_range (Rdot p u)) (vertices m) ->
  lowest u (vertices m) mn -> highest u (vertices m) mx ->
  0 < s_layerHeight s -> mn < mx ->
  let c := layer_height_at mn mx (s_layerHeight s) in
  exists sup full, (if s_supportsOn s then supportTriangles U m u mn s else Ok []) = Ok sup /\ Forall (fun t => Rdot (t1 t) u = mn) sup /\
    length full = Z.to_nat (layers_count (mx - mn) (s_layerHeight s)) /\
    (forall i l, nth_error full i = Some l -> layer_of U u (sup ++ m) c i l) /\
    sliceByVector U m Zv s = trim_layers full.
Proof.
  intros HU Hm Hu Hr Hlo Hhi HL Hh c.
  destruct (jobs_exact_sup U m Zv u s mn mx HU Hm Hu Hr Hlo Hhi HL Hh) as (sup & jobs & H1 & H2 & H3 & H4 & H5). fold c in H5.
  destruct (rmap_ok (slicingWorker U) jobs) as (full & E & F).
  { intros j _. destruct (worker_ok U j (lg_ends U HU)) as (o & _ & W). eauto. }
  exists sup, full. split; [exact H1|]. split; [exact H2|].
  assert (Nth : forall i l, nth_error full i = Some l -> exists j, nth_error jobs i = Some j /\ slicingWorker U j = Ok l).
  { clear -F. induction F as [|j l jobs full H F IH]; intros [|i] l0; cbn; try discriminate.
    - intros [= <-]. eauto.
    - apply IH. }
  assert (Lf : length full = length jobs) by (clear -F; induction F; cbn; congruence).
  split; [congruence|].
  assert (LO : forall i l, nth_error full i = Some l -> layer_of U u (sup ++ m) c i l).
  { intros i l Hl. destruct (Nth i l Hl) as (j & Hj & W). destruct (H5 i j Hj) as (O & P & Pr).
    destruct (worker_ok U j (lg_ends U HU)) as (o & J & W2). rewrite W in W2. injection W2 as ->.
    destruct Hu as [Un _].
    unfold layer_of. cbn [l_order l_norm l_paths]. split; [exact O|]. split; [rewrite P; reflexivity|].
    exists (sections (j_plane j) (j_triangles j)). split; [|exact J]. rewrite P. unfold sections.
    rewrite (pruned_sections (fun t : Rtriangle => @nleb ArithR (c i) (t_maxZ t u) = false) _ _ _) with (2 := Pr)
      by (intros t Ht; rewrite (below_none u (c i) t Un Ht); reflexivity).
    rewrite flat_map_filter by (intros t _ Ht; rewrite (above_none u (c i) t Un Ht); reflexivity).
    apply flat_map_perm, Permutation_app_head, Permutation_sym, (lg_asc U HU). }
  split; [exact LO|].
  unfold sliceByVector. destruct m as [|t m]; [congruence|]. rewrite H3. cbn [rbind]. rewrite E. cbn [rbind].
  f_equal. apply arrive_irrelevant; [apply (lg_arrive U HU)|].
  (* orders are increasing *)
  assert (G : forall ls k, (forall i l, nth_error ls i = Some l -> l_order l = Z.of_nat (k + i)) -> sorted_by ls).
  { induction ls as [|x ls IH]; intros k H; constructor.
    - apply (IH (S k)). intros i l Hl. rewrite (H (S i) l Hl). f_equal. lia.
    - apply Forall_forall. intros y Hy. apply In_nth_error in Hy. destruct Hy as (i & Hi).
      rewrite (H 0%nat x eq_refl), (H (S i) y Hi). lia. }
  apply (G full 0%nat). intros i l Hl. destruct (LO i l Hl) as (O & _). exact O.
Qed.

Theorem slice_exact U (m : Rmesh) (Zv u : Rvector) (s : @settings ArithR) (mn mx : R) :
  legal U -> m <> [] -> unit_of Zv u ->
  Forall (fun p => in_range (Rdot p u)) (vertices m) ->
  lowest u (vertices m) mn -> highest u (vertices m) mx ->
  0 < s_layerHeight s -> mn < mx ->
  let c := layer_height_at mn mx (s_layerHeight s) in
  exists sup full, (s_supportsOn s = false -> sup = []) /\ Forall (fun t => Rdot (t1 t) u = mn) sup /\
    length full = Z.to_nat (layers_count (mx - mn) (s_layerHeight s)) /\
    (forall i l, nth_error full i = Some l -> layer_of U u (sup ++ m) c i l) /\
    sliceByVector U m Zv s = trim_layers full.
Proof.
  intros HU Hm Hu Hr Hlo Hhi HL Hh c.
  destruct (slice_exact_sup U m Zv u s mn mx HU Hm Hu Hr Hlo Hhi HL Hh) as (sup & full & H1 & R).
  exists sup, full. split; [|exact R]. intros E. rewrite E in H1. injection H1 as <-. reflexivity.
Qed.
