(** * Properties C20-C25: parallel loops and slicing *)
From Coq Require Import String ZArith Reals Lra Lia List Bool Permutation Sorted PeanoNat.
From Flocq Require Import Core.Raux IEEE754.BinarySingleNaN.
From Verif Require Import Arith ArithR ArithF64 Prim Path PathClaims GeomSpec MeshProofs Helpers Gcode Slicer SlicerClaims
  SlicerProofs SlicerProofs2 SlicerFloat Par ParProofs Properties_Geom Properties_Path.
Import ListNotations.
Close Scope Z_scope.
Close Scope num_scope.
Close Scope string_scope.
Close Scope R_scope.

(** ** C20 Strided loops *)

(** Every execution is finite, never gets stuck before all workers are done, and
    when they are done every index holds its value and was written exactly once. *)
Theorem C20_strided : forall (T : Type) (n wn : nat) (f : nat -> T) (d : T), 1 <= wn ->
  (forall k s, steps (pstep n wn f) k (pinit n wn d) s -> k <= wn * (2 * (n + wn) + 1)) /\
  (forall s, star (pstep n wn f) (pinit n wn d) s ->
     (~ waited s -> exists t, pstep n wn f s t) /\
     (waited s -> arr s = map f (seq 0 n) /\ Permutation (log s) (seq 0 n))).
Proof.
  intros T n wn f d W. split.
  - intros k s H.
    assert (G : k + pmu n wn s <= pmu n wn (pinit n wn d) /\ pinv n wn f d s).
    { remember (pinit n wn d) as s0 eqn:E0. induction H as [|k s t u St IH Stp]; subst.
      - split; [lia|now apply pinv_init].
      - destruct (IH eq_refl) as [IH1 IH2]. split; [|eapply pinv_step; eauto].
        pose proof (pstep_mu n wn f d W _ _ IH2 Stp). lia. }
    assert (B : pmu n wn (pinit n wn d) <= wn * (2 * (n + wn) + 1)).
    { unfold pmu, pinit. cbn [pcs]. rewrite map_map.
      assert (forall l b, (forall x, In x l -> pmu1 n wn (Test x) <= b) -> list_sum (map (fun x => pmu1 n wn (Test x)) l) <= length l * b) as Hb.
      { induction l as [|x l IH]; intros b Hx; cbn [map list_sum fold_right length]; [lia|]. unfold list_sum in *.
        specialize (IH b ltac:(intros; apply Hx; now right)). pose proof (Hx x ltac:(now left)). lia. }
      specialize (Hb (seq 0 wn) (2 * (n + wn) + 1)). rewrite seq_length in Hb. apply Hb. intros x _. cbn [pmu1]. lia. }
    lia.
  - intros s H. split; [apply progress|]. apply (waited_result n wn f d W). now apply pinv_reach.
Qed.

(** No index is ever written by two workers at once. *)
Theorem C20_no_race : forall (T : Type) (n wn : nat) (f : nat -> T) (d : T), 1 <= wn ->
  forall s w w' i, star (pstep n wn f) (pinit n wn d) s ->
  nth_error (pcs s) w = Some (Body i) -> nth_error (pcs s) w' = Some (Body i) -> w = w'.
Proof. intros T n wn f d W s w w' i H. apply (no_race n wn f d). now apply pinv_reach. Qed.

(** CopyTriangles returns the triangles of the mesh. *)
Corollary C20_copyTriangles : forall (T : Type) (m : list T) (wn : nat) (d : T), 1 <= wn ->
  forall s, star (pstep (length m) wn (fun i => nth i m d)) (pinit (length m) wn d) s -> waited s -> arr s = m.
Proof.
  intros T m wn d W s H Hw. destruct (C20_strided T (length m) wn (fun i => nth i m d) d W) as [_ R].
  destruct (R s H) as [_ [E _]]; [exact Hw|]. rewrite E. clear.
  apply nth_ext with d d; [now rewrite map_length, seq_length|]. intros i Hi. rewrite map_length, seq_length in Hi.
  rewrite (nth_indep _ d (nth 0 m d)) by now rewrite map_length, seq_length.
  rewrite (map_nth (fun i => nth i m d)), seq_nth by exact Hi. reflexivity.
Qed.

(** ** C21 The pipeline *)

Theorem C21_pipeline : forall (J L : Type) (work : J -> L) (jobs : list J) (wn : nat), 1 <= wn ->
  let n := length jobs in
  let step := qstep n n n work in
  (forall k s, steps step k (qinit jobs wn) s -> k <= 6 * n + 1 + wn) /\
  (forall s, star step (qinit jobs wn) s ->
     (~ collected n s -> exists t, step s t) /\
     (collected n s -> Permutation (got s) (map work jobs))).
Proof.
  intros J L work jobs wn W n step. split.
  - intros k s H. pose proof (bounded step qmu (qstep_mu n n work jobs (le_n _) (le_n _)) k _ _ H) as B.
    rewrite (qmu_init n n jobs (le_n _) (le_n _)) in B. fold n in B. lia.
  - intros s H. split.
    + apply (pipeline_progress n n work jobs (le_n _) (le_n _) wn s W H).
    + apply (pipeline_result n n work jobs (le_n _) (le_n _) wn s H).
Qed.

(** The buffers matter: with smaller ones the program can block for ever. *)
Example C21_small_buffers_deadlock : exists s : qstate (J := nat) (L := nat),
  star (qstep 1 1 4 (fun j => j)) (qinit [0; 1; 2; 3] 1) s /\ ~ collected 4 s /\ forall t, ~ qstep 1 1 4 (fun j => j) s t.
Proof.
  exists (QS [3] false [2] [Ready 1] [0] []). split; [|split].
  - eapply star_step with (t := QS [3] false [2] [Busy 1] [0] []); [|refine (q_work 1 1 4 (fun j => j) _ _ _ _ 0 1 _ _ _); reflexivity].
    eapply star_step with (t := QS [2; 3] false [] [Busy 1] [0] []); [|refine (q_send 1 1 4 (fun j => j) 2 [3] [] _ _ _ _); cbn; lia].
    eapply star_step with (t := QS [2; 3] false [1] [Idle] [0] []); [|refine (q_take 1 1 4 (fun j => j) _ _ 1 [] _ 0 _ _ _); reflexivity].
    eapply star_step with (t := QS [2; 3] false [1] [Ready 0] [] []); [|refine (q_put 1 1 4 (fun j => j) _ _ _ _ 0 0 [] _ _ _); [reflexivity|cbn; lia]].
    eapply star_step with (t := QS [2; 3] false [1] [Busy 0] [] []); [|refine (q_work 1 1 4 (fun j => j) _ _ _ _ 0 0 _ _ _); reflexivity].
    eapply star_step with (t := QS [1; 2; 3] false [] [Busy 0] [] []); [|refine (q_send 1 1 4 (fun j => j) 1 [2; 3] [] _ _ _ _); cbn; lia].
    eapply star_step with (t := QS [1; 2; 3] false [0] [Idle] [] []); [|refine (q_take 1 1 4 (fun j => j) _ _ 0 [] _ 0 _ _ _); reflexivity].
    eapply star_step with (t := QS [0; 1; 2; 3] false [] [Idle] [] []); [|refine (q_send 1 1 4 (fun j => j) 0 [1; 2; 3] [] _ _ _ _); cbn; lia].
    constructor.
  - intros [H _]; discriminate.
  - intros t H. inversion H; subst; cbn in *; try lia;
      match goal with K : nth_error [Ready 1] ?w = Some _ |- _ => destruct w as [|[|w]]; cbn in K; discriminate end.
Qed.

Lemma jobs_orders {A : Arith} U (m : mesh) Z s jobs : slicing_jobs U m Z s = Ok jobs ->
  forall i j, nth_error jobs i = Some j -> j_order j = Z.of_nat i.
Proof.
  unfold slicing_jobs. destruct (m_minMaxZ m (normalize Z)) as [mn mx]. destruct (_ <? 0)%Z; [discriminate|].
  destruct (if s_supportsOn s then _ else _) as [sup| |]; cbn [rbind]; try discriminate. intros [= <-] i j Hj.
  apply sweep_shape in Hj. destruct Hj as [-> _]. lia.
Qed.
Lemma layers_sorted {A : Arith} U (m : mesh) Z s jobs full : slicing_jobs U m Z s = Ok jobs ->
  rmap (slicingWorker U) jobs = Ok full -> legal U -> sorted_by full.
Proof.
  intros Hj Hf HU. pose proof (jobs_orders U m Z s jobs Hj) as HO. clear Hj.
  assert (G : forall k full, (forall i j, nth_error jobs i = Some j -> j_order j = Z.of_nat (k + i)) ->
    rmap (slicingWorker U) jobs = Ok full ->
    sorted_by full /\ Forall (fun l => (Z.of_nat k <= l_order l)%Z) full).
  { clear full Hf HO. induction jobs as [|j jobs IH]; intros k full HO; cbn [rmap].
    - intros [= <-]. repeat constructor.
    - destruct (worker_ok U j (lg_ends U HU)) as (o & _ & W). rewrite W. cbn [rbind].
      destruct (rmap (slicingWorker U) jobs) as [r| |] eqn:Er; cbn [rbind]; try discriminate. intros [= <-].
      destruct (IH (S k) r) as [S F]; [|reflexivity|].
      { intros i j' Hj. rewrite (HO (S i) j' Hj). f_equal. lia. }
      specialize (HO 0 j eq_refl). rewrite Nat.add_0_r in HO. split.
      + constructor; [exact S|]. eapply Forall_impl; [|exact F]. cbn [l_order]. intros; lia.
      + constructor; [cbn; lia|]. eapply Forall_impl; [|exact F]. cbn. intros; lia. }
  now apply (G 0 full).
Qed.

(** The result of SliceByVector does not depend on the order of arrival. *)
Theorem C21_arrival_irrelevant : forall (A : Arith) (U : env) arrive (m : mesh) Z s, legal U ->
  (forall l, Permutation l (arrive l)) ->
  sliceByVector (with_arrive U arrive) m Z s = sliceByVector U m Z s.
Proof.
  intros A U arrive m Z s HU Ha. unfold sliceByVector. destruct m as [|t m]; [reflexivity|].
  change (slicing_jobs (with_arrive U arrive) (t :: m) Z s) with (slicing_jobs U (t :: m) Z s).
  change (slicingWorker (with_arrive U arrive)) with (slicingWorker U).
  destruct (slicing_jobs U (t :: m) Z s) as [jobs| |] eqn:Ej; cbn [rbind]; try reflexivity.
  destruct (rmap (slicingWorker U) jobs) as [full| |] eqn:Ef; cbn [rbind]; try reflexivity.
  pose proof (layers_sorted U _ Z s jobs full Ej Ef HU) as S.
  rewrite (arrive_irrelevant U full (lg_arrive U HU) S).
  rewrite (arrive_irrelevant (with_arrive U arrive) full Ha S). reflexivity.
Qed.

(** In every finished execution the sorted layers are those of the jobs, in order. *)
Theorem C21_layers : forall (A : Arith) (U : env) (m : mesh) Z s jobs wn, legal U -> 1 <= wn ->
  slicing_jobs U m Z s = Ok jobs ->
  exists work : job -> layer, (forall j, slicingWorker U j = Ok (work j)) /\
    forall st, star (qstep (length jobs) (length jobs) (length jobs) work) (qinit jobs wn) st -> collected (length jobs) st ->
      sort_layers (got st) = map work jobs /\
      sliceByVector U m Z s = match m with [] => Ok [] | _ => trim_layers (sort_layers (got st)) end.
Proof.
  intros A U m Z s jobs wn HU W Ej.
  set (work := fun j => match slicingWorker U j with Ok l => l | _ => Layer_ 0%Z (pl_n (j_plane j)) [] [] None [] end).
  assert (Hw : forall j, slicingWorker U j = Ok (work j)).
  { intros j. unfold work. destruct (worker_ok U j (lg_ends U HU)) as (o & _ & E). now rewrite E. }
  exists work. split; [exact Hw|]. intros st Hst Hc.
  destruct (C21_pipeline _ _ work jobs wn W) as [_ P]. destruct (P st Hst) as [_ Pg]. specialize (Pg Hc).
  assert (Ef : rmap (slicingWorker U) jobs = Ok (map work jobs)).
  { clear -Hw. induction jobs as [|j jobs IH]; [reflexivity|]. cbn [rmap map]. rewrite Hw, IH. reflexivity. }
  pose proof (layers_sorted U m Z s jobs _ Ej Ef HU) as S.
  assert (E : sort_layers (got st) = map work jobs).
  { apply sorted_unique; [|exact S|rewrite <- sort_perm; exact Pg].
    apply sort_sorted. eapply Permutation_NoDup; [apply Permutation_map, Permutation_sym, Pg|].
    clear -S. induction S as [|x l S IH F]; cbn; constructor; auto. intros K. apply in_map_iff in K. destruct K as (y & E & Hy).
    rewrite Forall_forall in F. specialize (F y Hy). lia. }
  split; [exact E|]. rewrite E. unfold sliceByVector. destruct m; [reflexivity|].
  rewrite Ej. cbn [rbind]. rewrite Ef. cbn [rbind]. f_equal. apply arrive_irrelevant; [apply (lg_arrive U HU)|exact S].
Qed.

Local Open Scope R_scope.

(** ** C22 The sweep, exact arithmetic *)

(** the plane of height [c] misses the triangle *)
Definition misses (u : Rvector) (c : R) (t : Rtriangle) : Prop :=
  (forall p, In p [t1 t; t2 t; t3 t] -> c < Rdot p u) \/ (forall p, In p [t1 t; t2 t; t3 t] -> Rdot p u < c).

Lemma pruned_split {T} (D : T -> Prop) l js : pruned D l js -> exists d, Permutation l (js ++ d) /\ Forall D d.
Proof.
  induction 1 as [|x l js P (d & E & F)|x l js Dx P (d & E & F)].
  - exists []. auto.
  - exists d. split; [cbn; now constructor|exact F].
  - exists (x :: d). split; [rewrite <- Permutation_middle; now constructor|now constructor].
Qed.
Lemma filter_split {T} (f : T -> bool) l : Permutation l (filter f l ++ filter (fun x => negb (f x)) l).
Proof.
  induction l as [|x l IH]; [reflexivity|]. cbn [filter]. destruct (f x); cbn [negb]; cbn [app].
  - now constructor.
  - rewrite <- Permutation_middle. now constructor.
Qed.

(** Every layer is handed every triangle (of the mesh and of the supports) as often
    as it occurs, except triangles that its plane misses; nothing above the plane
    is handed over. *)
Theorem C22_handed : forall U (m : Rmesh) (Zv u : Rvector) (s : @settings ArithR) (mn mx : R),
  legal U -> m <> [] -> unit_of Zv u -> Forall (fun p => in_range (Rdot p u)) (vertices m) ->
  lowest u (vertices m) mn -> highest u (vertices m) mx -> 0 < s_layerHeight s -> mn < mx ->
  exists sup jobs, (s_supportsOn s = false -> sup = []) /\ slicing_jobs U m Zv s = Ok jobs /\
    length jobs = Z.to_nat (layers_count (mx - mn) (s_layerHeight s)) /\
    forall i j, nth_error jobs i = Some j ->
      let c := layer_height_at mn mx (s_layerHeight s) i in
      j_plane j = plane_at u c /\
      (exists rest, Permutation (sup ++ m) (j_triangles j ++ rest) /\ Forall (misses u c) rest) /\
      Forall (fun t => exists p, In p [t1 t; t2 t; t3 t] /\ Rdot p u <= c) (j_triangles j).
Proof.
  intros U m Zv u s mn mx HU Hm Hu Hr Hlo Hhi HL Hh.
  destruct (jobs_exact U m Zv u s mn mx HU Hm Hu Hr Hlo Hhi HL Hh) as (sup & jobs & H1 & H2 & H3 & H4 & H5).
  exists sup, jobs. split; [exact H1|]. split; [exact H3|]. split; [exact H4|]. intros i j Hj c.
  destruct (H5 i j Hj) as (_ & P & Pr). fold c in P, Pr. split; [exact P|].
  pose proof (filter_split (fun t => @nleb ArithR (t_minZ t u) c) (sup ++ u_asc U u m)) as FS.
  destruct (pruned_split _ _ _ Pr) as (d & E & F).
  split.
  - exists (d ++ filter (fun t => negb (@nleb ArithR (t_minZ t u) c)) (sup ++ u_asc U u m)). split.
    + rewrite (Permutation_app_head sup (lg_asc U HU u m)). rewrite FS at 1. rewrite E at 1. now rewrite <- app_assoc.
    + apply Forall_app. split.
      * eapply Forall_impl; [|exact F]. intros t Ht. right. intros p Hp.
        destruct (Rlt_dec (Rdot p u) c); [assumption|]. exfalso.
        enough (@nleb ArithR c (t_maxZ t u) = true) by congruence. apply maxZ_ge.
        destruct Hp as [<-|[<-|[<-|[]]]]; lra.
      * apply Forall_forall. intros t Ht. apply filter_In in Ht. destruct Ht as [_ Ht]. apply negb_true_iff in Ht. left. intros p Hp.
        destruct (Rlt_dec c (Rdot p u)); [assumption|]. exfalso.
        enough (@nleb ArithR (t_minZ t u) c = true) by congruence. apply minZ_le.
        destruct Hp as [<-|[<-|[<-|[]]]]; lra.
  - apply Forall_forall. intros t Ht.
    assert (In t (filter (fun t => @nleb ArithR (t_minZ t u) c) (sup ++ u_asc U u m))) as Hf.
    { eapply Permutation_in; [apply Permutation_sym, E|]. apply in_or_app. now left. }
    apply filter_In in Hf. destruct Hf as [_ Hf]. apply minZ_le in Hf. cbn [In].
    destruct Hf as [K|[K|K]]; eauto 6.
Qed.

(** So every layer is made of the sections of its plane with all triangles. *)
Theorem C22_layers : forall U (m : Rmesh) (Zv u : Rvector) (s : @settings ArithR) (mn mx : R),
  legal U -> m <> [] -> unit_of Zv u -> Forall (fun p => in_range (Rdot p u)) (vertices m) ->
  lowest u (vertices m) mn -> highest u (vertices m) mx -> 0 < s_layerHeight s -> mn < mx ->
  exists sup, (s_supportsOn s = false -> sup = []) /\
    forall ls l, sliceByVector U m Zv s = Ok ls -> In l ls ->
      exists i segs, l_order l = Z.of_nat i /\ (i < Z.to_nat (layers_count (mx - mn) (s_layerHeight s)))%nat /\
        Permutation segs (sections (plane_at u (layer_height_at mn mx (s_layerHeight s) i)) (sup ++ m)) /\
        joinPaths3AndMinimize (u_ends U) segs = Ok (l_paths l).
Proof.
  intros U m Zv u s mn mx HU Hm Hu Hr Hlo Hhi HL Hh.
  destruct (slice_exact U m Zv u s mn mx HU Hm Hu Hr Hlo Hhi HL Hh) as (sup & full & H1 & H2 & H3 & H4 & H5).
  exists sup. split; [exact H1|]. intros ls l E Hl. rewrite H5 in E. pose proof (trim_spec full) as T. rewrite E in T.
  destruct T as (a & b & Ef & _). assert (Hf : In l full) by (rewrite Ef, !in_app_iff; auto).
  apply In_nth_error in Hf. destruct Hf as (i & Hi). destruct (H4 i l Hi) as (O & _ & segs & P & J).
  exists i, segs. split; [exact O|]. split; [rewrite <- H3; apply nth_error_Some; congruence|]. split; assumption.
Qed.

(** ** C22 in float64 along the z axis *)
Theorem C22_handed_float : forall E (U : @env (ArithF64 E)) (m : @mesh (ArithF64 E)) (s : @settings (ArithF64 E)) (mn mx : f64) jobs,
  legal U -> m <> [] -> Forall (pt_fin E) (vertices m) -> m_minMaxZ m (@axisZ (ArithF64 E)) = (mn, mx) ->
  Bltb mn mx = true -> is_finite (f64_sub mx mn) = true -> s_supportsOn s = false ->
  slicing_jobs U m (@axisZ (ArithF64 E)) s = Ok jobs ->
  forall i j, nth_error jobs i = Some j ->
    let z := pz (pl_p (j_plane j)) : f64 in
    exists rest, Permutation m (j_triangles j ++ rest) /\
      Forall (fun t => Bleb (t_minZ t (@axisZ (ArithF64 E))) z = false \/ Bleb z (t_maxZ t (@axisZ (ArithF64 E))) = false) rest /\
      Forall (fun t => Bleb (t_minZ t (@axisZ (ArithF64 E))) z = true) (j_triangles j).
Proof.
  intros E U m s mn mx jobs HU Hm Hv Ex Hlt Hfin Hs Ej i j Hj z.
  destruct (jobs_axisZ E U m s mn mx jobs HU Hm Hv Ex Hlt Hfin Hs Ej) as [_ H].
  destruct (H i j Hj) as (_ & _ & S & _ & Pr).
  set (zz := hz (@axisZ (ArithF64 E)) (pl_p (j_plane j))) in *. fold z in S.
  assert (L1 : forall x : f64, Bleb x zz = Bleb x z) by (intros x; apply same_leb; [now left|exact S]).
  assert (L2 : forall x : f64, Bleb zz x = Bleb z x) by (intros x; apply same_leb; [exact S|now left]).
  destruct (pruned_split _ _ _ Pr) as (d & Ed & F).
  pose proof (filter_split (fun t => Bleb (t_minZ t (@axisZ (ArithF64 E))) zz) (u_asc U (@axisZ (ArithF64 E)) m)) as FS.
  exists (d ++ filter (fun t => negb (Bleb (t_minZ t (@axisZ (ArithF64 E))) zz)) (u_asc U (@axisZ (ArithF64 E)) m)). split; [|split].
  - rewrite (lg_asc U HU (@axisZ (ArithF64 E)) m) at 1. rewrite FS at 1.
    rewrite app_assoc. apply Permutation_app_tail. exact Ed.
  - apply Forall_app. split.
    + eapply Forall_impl; [|exact F]. intros t Ht. right. rewrite <- L2. exact Ht.
    + apply Forall_forall. intros t Ht. apply filter_In in Ht. destruct Ht as [_ Ht]. apply negb_true_iff in Ht. left. now rewrite <- L1.
  - apply Forall_forall. intros t Ht.
    assert (In t (filter (fun t => @nleb (ArithF64 E) (t_minZ t (@axisZ (ArithF64 E))) zz) (u_asc U (@axisZ (ArithF64 E)) m))) as Hf.
    { eapply Permutation_in; [apply Permutation_sym, Ed|]. apply in_or_app. now left. }
    apply filter_In in Hf. destruct Hf as [_ Hf]. rewrite <- L1. exact Hf.
Qed.

(** ** C23 Heights *)
Theorem C23_heights : forall (mn mx LH : R), 0 < LH -> mn < mx ->
  let n := layers_count (mx - mn) LH in
  let c := layer_height_at mn mx LH in
  (0 < n)%Z /\ (IZR n - 1 < (mx - mn) / LH <= IZR n) /\
  (forall i, (i < Z.to_nat n)%nat -> mn < c i < mx) /\
  (forall i, c (S i) - c i = (mx - mn) / IZR n) /\ (mx - mn) / IZR n <= LH /\
  c 0%nat - mn = (mx - mn) / IZR n / 2 /\ mx - c (Z.to_nat n - 1)%nat = (mx - mn) / IZR n / 2.
Proof.
  intros mn mx LH HL Hh n c. assert (Hn : (0 < n)%Z) by (apply count_pos; lra). assert (Hn' : 0 < IZR n) by now apply IZR_lt.
  assert (Hs : 0 < (mx - mn) / IZR n) by (apply Rdiv_lt_0_compat; lra).
  assert (Ec : (mx - mn) / LH <= IZR n) by apply Zceil_ub.
  assert (En : IZR n * ((mx - mn) / IZR n) = mx - mn) by (field; lra).
  assert (Bound : forall i, (i < Z.to_nat n)%nat -> INR i + 1 <= IZR n).
  { intros i Hi. rewrite INR_IZR_INZ, <- plus_IZR. apply IZR_le. lia. }
  split; [exact Hn|]. split.
  { split; [|exact Ec]. unfold n, layers_count. pose proof (Zceil_lb ((mx - mn) / LH)). lra. }
  split.
  { intros i Hi. specialize (Bound i Hi). unfold c, layer_height_at. fold n. pose proof (pos_INR i).
    split; [assert (0 < (INR i + / 2) * ((mx - mn) / IZR n)) by (apply Rmult_lt_0_compat; lra); lra|].
    assert ((INR i + / 2) * ((mx - mn) / IZR n) < IZR n * ((mx - mn) / IZR n)) by (apply Rmult_lt_compat_r; lra). lra. }
  split; [intros i; unfold c, layer_height_at; fold n; rewrite S_INR; ring|].
  split.
  { apply Rmult_le_reg_r with (IZR n); [exact Hn'|]. replace ((mx - mn) / IZR n * IZR n) with (mx - mn) by (field; lra).
    apply Rmult_le_reg_r with (/ LH); [now apply Rinv_0_lt_compat|]. replace (LH * IZR n * / LH) with (IZR n) by (field; lra). exact Ec. }
  split; [unfold c, layer_height_at; fold n; cbn [INR]; lra|].
  unfold c, layer_height_at. fold n. rewrite minus_INR by lia. cbn [INR]. rewrite INR_IZR_INZ, Z2Nat.id by lia.
  transitivity (IZR n * ((mx - mn) / IZR n) - (IZR n - 1 + / 2) * ((mx - mn) / IZR n)); [rewrite En; ring|]. lra.
Qed.

(** Every point of every path of the returned layer of order i is a point of the
    surface at exactly that height, rounded to eight places. *)
Theorem C23_points : forall U (m : Rmesh) (Zv u : Rvector) (s : @settings ArithR) (mn mx : R),
  legal U -> m <> [] -> unit_of Zv u -> Forall (fun p => in_range (Rdot p u)) (vertices m) ->
  lowest u (vertices m) mn -> highest u (vertices m) mx -> 0 < s_layerHeight s -> mn < mx ->
  exists sup, (s_supportsOn s = false -> sup = []) /\
    forall ls l, sliceByVector U m Zv s = Ok ls -> In l ls -> l_norm l = u /\
      exists i, l_order l = Z.of_nat i /\ (i < Z.to_nat (layers_count (mx - mn) (s_layerHeight s)))%nat /\
        forall p q, In p (l_paths l) -> In q p ->
          exists t e, In t (sup ++ m) /\ in_tri (t1 t) (t2 t) (t3 t) e /\
            Rdot e u = layer_height_at mn mx (s_layerHeight s) i /\ within (5 / 10 ^ 9) q e.
Proof.
  intros U m Zv u s mn mx HU Hm Hu Hr Hlo Hhi HL Hh.
  destruct (slice_exact U m Zv u s mn mx HU Hm Hu Hr Hlo Hhi HL Hh) as (sup & full & H1 & H2 & H3 & H4 & H5).
  exists sup. split; [exact H1|]. intros ls l E Hl. rewrite H5 in E. pose proof (trim_spec full) as T. rewrite E in T.
  destruct T as (a & b & Ef & _). assert (Hf : In l full) by (rewrite Ef, !in_app_iff; auto).
  apply In_nth_error in Hf. destruct Hf as (i & Hi). destruct (H4 i l Hi) as (O & N & segs & P & J).
  split; [exact N|]. exists i. split; [exact O|]. split; [rewrite <- H3; apply nth_error_Some; congruence|].
  intros p q Hp Hq. set (c := layer_height_at mn mx (s_layerHeight s) i) in *.
  assert (Fs : Forall (fun q : path => q <> []) segs).
  { apply Forall_forall. intros x Hx. apply (Permutation_in x P) in Hx. pose proof (sections_nonempty (plane_at u c) (sup ++ m)) as F.
    rewrite Forall_forall in F. now apply F. }
  pose proof (join_points (u_ends U) segs _ (lg_ends U HU) Fs J p q Hp Hq) as Hc.
  apply in_concat in Hc. destruct Hc as (x & Hx & Hqx). apply (Permutation_in x P) in Hx.
  apply in_flat_map in Hx. destruct Hx as (t & Ht & Hx). pose proof (C28_triangle (plane_at u c) t) as K.
  destruct (intersectTriangle (plane_at u c) t) as [seg|]; [|destruct Hx]. destruct Hx as [<-|[]].
  destruct K as (e & f & S & W1 & W2 & _ & _). destruct Hu as [Un _].
  assert (Se : in_tri (t1 t) (t2 t) (t3 t) e /\ sd (plane_at u c) e = 0).
  { apply S. exists 0. split; [lra|]. unfold along. destruct e as [x y z]. cbn [px py pz]. unfold X, Y, Z3. cbn [px py pz]. f_equal; rcbn; ring. }
  assert (Sf : in_tri (t1 t) (t2 t) (t3 t) f /\ sd (plane_at u c) f = 0).
  { apply S. exists 1. split; [lra|]. unfold along. destruct f as [x y z]. unfold X, Y, Z3. cbn [px py pz]. f_equal; rcbn; ring. }
  rewrite !sd_at in Se, Sf by exact Un.
  cbn [In] in Hqx. destruct Hqx as [<-|[<-|[]]].
  - exists t, e. repeat split; try tauto; try apply Se; try apply W1. lra.
  - exists t, f. repeat split; try tauto; try apply Sf; try apply W2. lra.
Qed.

(** ** C24 Panics *)
Theorem C24_empty_mesh : forall (A : Arith) U Z s, sliceByVector U [] Z s = Ok [].
Proof. reflexivity. Qed.

Theorem C24_no_layer_panics : forall (A : Arith) U (m : mesh) Z s, legal U -> m <> [] ->
  (layer_number m (normalize Z) s <= 0)%Z -> sliceByVector U m Z s = Panic.
Proof.
  intros A U m Z s HU Hm Hn. unfold sliceByVector. destruct m as [|t m]; [congruence|]. unfold slicing_jobs.
  destruct (m_minMaxZ (t :: m) (normalize Z)) as [mn mx]. set (n := layer_number _ _ _) in *.
  destruct (Z.ltb_spec n 0); [reflexivity|].
  assert (Hs : exists r, (if s_supportsOn s then supportTriangles U (t :: m) (normalize Z) mn s else Ok []) = r /\ r <> Diverge).
  { eexists. split; [reflexivity|]. destruct (s_supportsOn s); [|discriminate]. unfold supportTriangles.
    set (cl := makeUndoubledLines _). set (pl := Pl _ _).
    assert (K : makeSupportLines cl pl <> Diverge).
    { unfold makeSupportLines. clear. induction cl as [|l cl IH]; cbn [rmap]; [discriminate|].
      unfold proectionPointToPlane at 1. destruct (nisnan _); cbn [rbind]; [discriminate|].
      unfold proectionPointToPlane at 1. destruct (nisnan _); cbn [rbind]; [discriminate|].
      destruct (rmap _ cl); cbn; congruence. }
    destruct (makeSupportLines cl pl); cbn [rbind]; congruence. }
  destruct Hs as (r & -> & Hr). destruct r as [sup| |]; cbn [rbind]; [|reflexivity|congruence].
  replace (Z.to_nat n) with 0%nat by lia. cbn [sweep rmap rbind].
  pose proof (lg_arrive U HU []) as P. apply Permutation_nil in P. rewrite P. reflexivity.
Qed.

(** a flat mesh *)
Theorem C24_flat_panics : forall U (m : Rmesh) (Zv u : Rvector) (s : @settings ArithR) (h : R),
  legal U -> m <> [] -> unit_of Zv u -> in_range h -> (forall p, In p (vertices m) -> Rdot p u = h) ->
  sliceByVector U m Zv s = Panic.
Proof.
  intros U m Zv u s h HU Hm Hu Hr Hf. apply C24_no_layer_panics; auto.
  rewrite (normalize_unit _ _ Hu).
  assert (Hp : exists p, In p (vertices m)) by (destruct m as [|t m]; [congruence|exists (t1 t); cbn; auto]).
  destruct Hp as (p & Hp).
  rewrite (layer_number_R m u s h h).
  - unfold layers_count. unfold Rminus. rewrite Rplus_opp_r. unfold Rdiv. rewrite Rmult_0_l. rewrite (Zceil_IZR 0). lia.
  - apply extent; auto.
    + apply Forall_forall. intros q Hq. now rewrite Hf.
    + split; [exists p; auto|]. intros q Hq. rewrite Hf by exact Hq. lra.
    + split; [exists p; auto|]. intros q Hq. rewrite Hf by exact Hq. lra.
Qed.

Lemma join_empty U segs out : legal U -> Forall (fun q : @path ArithR => q <> []) segs ->
  joinPaths3AndMinimize (u_ends U) segs = Ok out -> (out = [] <-> segs = []).
Proof.
  intros HU Hs. unfold joinPaths3AndMinimize.
  destruct (JoinProofs.joinPaths3_ok (u_ends U) segs (lg_ends U HU) Hs) as (o & -> & (parts & P & F)). cbn [rbind]. intros [= <-].
  split; intros E.
  - destruct o; [|discriminate]. inversion F; subst. cbn in P. now apply Permutation_nil in P.
  - subst segs. apply Permutation_sym, Permutation_nil in P. destruct F as [|q ps o parts Hq F]; [reflexivity|].
    apply chain_sides in Hq. destruct Hq as (_ & N & I). exfalso. destruct q as [|x q]; [congruence|].
    assert (In x (concat ps)) as Hx by (apply I; now left). apply in_concat in Hx. destruct Hx as (y & Hy & _).
    assert (In y (concat (ps :: parts))) as K by (cbn; apply in_or_app; now left). rewrite P in K. destruct K.
Qed.

(** positive extent: it panics exactly if there is one layer and its plane, half
    way up, meets nothing *)
Theorem C24_panics_iff : forall U (m : Rmesh) (Zv u : Rvector) (s : @settings ArithR) (mn mx : R),
  legal U -> m <> [] -> unit_of Zv u -> Forall (fun p => in_range (Rdot p u)) (vertices m) ->
  lowest u (vertices m) mn -> highest u (vertices m) mx -> 0 < s_layerHeight s -> mn < mx ->
  exists sup, (s_supportsOn s = false -> sup = []) /\
    (sliceByVector U m Zv s = Panic <->
       mx - mn <= s_layerHeight s /\ sections (plane_at u ((mn + mx) / 2)) (sup ++ m) = []) /\
    sliceByVector U m Zv s <> Diverge.
Proof.
  intros U m Zv u s mn mx HU Hm Hu Hr Hlo Hhi HL Hh.
  destruct (slice_exact U m Zv u s mn mx HU Hm Hu Hr Hlo Hhi HL Hh) as (sup & full & H1 & H2 & H3 & H4 & H5).
  exists sup. split; [exact H1|]. rewrite H5. pose proof (trim_spec full) as T.
  destruct (C23_heights mn mx (s_layerHeight s) HL Hh) as (Hn & Hc & _). set (n := layers_count (mx - mn) (s_layerHeight s)) in *.
  assert (One : mx - mn <= s_layerHeight s <-> n = 1%Z).
  { split; intros K.
    - assert ((mx - mn) / s_layerHeight s <= 1).
      { apply Rmult_le_reg_r with (s_layerHeight s); [exact HL|]. unfold Rdiv. rewrite Rmult_assoc, Rinv_l by lra. lra. }
      assert (IZR n < 2) by lra. apply lt_IZR in H0. lia.
    - rewrite K in Hc. assert ((mx - mn) / s_layerHeight s * s_layerHeight s <= 1 * s_layerHeight s) by (apply Rmult_le_compat_r; lra).
      unfold Rdiv in H. rewrite Rmult_assoc, Rinv_l in H by lra. lra. }
  assert (L0 : forall l, full = [l] -> n = 1%Z /\ (l_paths l = [] <-> sections (plane_at u ((mn + mx) / 2)) (sup ++ m) = [])).
  { intros l E. assert (n = 1%Z) as N1.
    { rewrite E in H3. cbn in H3. assert (Z.of_nat 1 = n) by (rewrite H3; apply Z2Nat.id; lia). lia. }
    split; [exact N1|]. destruct (H4 0%nat l) as (_ & _ & segs & P & J); [now rewrite E|].
    assert (Ec : layer_height_at mn mx (s_layerHeight s) 0 = (mn + mx) / 2).
    { unfold layer_height_at. fold n. rewrite N1. cbn [INR]. field. }
    rewrite Ec in P. pose proof (sections_nonempty (plane_at u ((mn + mx) / 2)) (sup ++ m)) as Fs.
    assert (Fs' : Forall (fun q : path => q <> []) segs).
    { apply Forall_forall. intros x Hx. apply (Permutation_in x P) in Hx. rewrite Forall_forall in Fs. now apply Fs. }
    rewrite (join_empty U segs _ HU Fs' J). split; intros K.
    - rewrite K in P. now apply Permutation_nil in P.
    - rewrite K in P. apply Permutation_sym, Permutation_nil in P. exact P. }
  destruct (trim_layers full) as [out| |] eqn:Et; [|split; [|discriminate]|destruct T].
  - split; [split; [discriminate|]|discriminate]. intros [K1 K2]. exfalso. apply One in K1.
    destruct full as [|l [|l2 full]]; [cbn in H3; rewrite K1 in H3; discriminate| |cbn in H3; rewrite K1 in H3; discriminate].
    destruct (L0 l eq_refl) as [_ [_ K3]]. specialize (K3 K2).
    cbn [trim_layers] in Et. rewrite K3 in Et. discriminate.
  - split.
    + intros _. destruct T as [->|(l & -> & El)]; [cbn in H3; lia|]. destruct (L0 l eq_refl) as [N1 [K3 _]]. split; [now apply One|auto].
    + reflexivity.
Qed.

(** ** C25 Trimming *)
Theorem C25_trim : forall (A : Arith) U (m : mesh) Z s ls, legal U -> m <> [] -> sliceByVector U m Z s = Ok ls ->
  exists jobs full a b, slicing_jobs U m Z s = Ok jobs /\ Forall2 (fun j l => slicingWorker U j = Ok l) jobs full /\
    map l_order full = map Z.of_nat (seq 0 (length jobs)) /\
    full = a ++ ls ++ b /\ (length a <= 1)%nat /\ (length b <= 1)%nat /\
    Forall (fun l => l_paths l = []) (a ++ b) /\
    (a = [] -> forall l, hd_error full = Some l -> l_paths l <> []) /\
    (b = [] -> forall d, l_paths (last full d) <> []).
Proof.
  intros A U m Z s ls HU Hm. unfold sliceByVector. destruct m as [|t m]; [congruence|].
  destruct (slicing_jobs U (t :: m) Z s) as [jobs| |] eqn:Ej; cbn [rbind]; try discriminate.
  destruct (rmap_ok (slicingWorker U) jobs) as (full & Ef & F).
  { intros j _. destruct (worker_ok U j (lg_ends U HU)) as (o & _ & W). eauto. }
  rewrite Ef. cbn [rbind].
  rewrite (arrive_irrelevant U full (lg_arrive U HU) (layers_sorted U _ Z s jobs full Ej Ef HU)).
  intros Et. pose proof (trim_spec full) as T. rewrite Et in T. destruct T as (a & b & H1 & H2 & H3 & H4 & H5 & H6).
  exists jobs, full, a, b. split; [reflexivity|]. split; [exact F|]. split; [|auto 10].
  pose proof (jobs_orders U _ Z s jobs Ej) as HO. clear -F HO HU.
  assert (G : forall k, (forall i j, nth_error jobs i = Some j -> j_order j = Z.of_nat (k + i)) ->
    map l_order full = map Z.of_nat (seq k (length jobs))).
  { clear HO. induction F as [|j l jobs full W F IH]; intros k HO; [reflexivity|]. cbn [map length seq].
    rewrite (IH (S k)); [|intros i j' Hj; rewrite (HO (S i) j' Hj); f_equal; lia]. f_equal.
    destruct (worker_ok U j (lg_ends U HU)) as (o & _ & W2). rewrite W in W2. injection W2 as ->. cbn [l_order].
    rewrite (HO 0%nat j eq_refl). f_equal. lia. }
  now apply G.
Qed.

(** ** The hypotheses can be met *)

(** sorting by insertion, results arriving in reverse *)
Example ex_env_R : legal (A := ArithR) env0.
Proof. exact env0_legal. Qed.
Example ex_env_F : legal (A := ArithF64 elem0) env0.
Proof. exact env0_legal. Qed.

(** a tetrahedron of height 1, sliced upwards *)
Definition rp (x y z : R) : Rpoint := P3 (A := ArithR) x y z.
Definition tetraR : Rmesh :=
  let a := rp 0 0 0 in let b := rp 1 0 0 in let c := rp 0 1 0 in let d := rp 0 0 1 in
  [newTriangle a c b; newTriangle a b d; newTriangle b c d; newTriangle c a d].
Example ex_unit : unit_of (V3 (A := ArithR) 0 0 5) (V3 (A := ArithR) 0 0 1).
Proof. unfold unit_of. cbn. split; [ring|]. exists 5. repeat split; lra. Qed.
Lemma tetra_heights : forall p, In p (vertices tetraR) -> Rdot p (V3 (A := ArithR) 0 0 1) = 0 \/ Rdot p (V3 (A := ArithR) 0 0 1) = 1.
Proof.
  intros p Hp. cbn in Hp. decompose [or] Hp; subst; unfold Rdot, rp; cbn [px py pz vx vy vz]; (left; rcbn; lra) || (right; rcbn; lra) || contradiction.
Qed.
Example ex_range : Forall (fun p => in_range (Rdot p (V3 (A := ArithR) 0 0 1))) (vertices tetraR).
Proof.
  apply Forall_forall. intros p Hp. unfold in_range.
  assert (1 <= IZR ((2 ^ 53 - 1) * 2 ^ 971)) by (apply IZR_le; vm_compute; discriminate).
  destruct (tetra_heights p Hp) as [-> | ->]; [rewrite Rabs_R0|rewrite Rabs_R1]; lra.
Qed.
Example ex_low : lowest (V3 (A := ArithR) 0 0 1) (vertices tetraR) 0.
Proof.
  split; [exists (rp 0 0 0); split; [cbn; auto|unfold Rdot, rp; cbn [px py pz vx vy vz]; rcbn; lra]|].
  intros p Hp. destruct (tetra_heights p Hp) as [-> | ->]; lra.
Qed.
Example ex_high : highest (V3 (A := ArithR) 0 0 1) (vertices tetraR) 1.
Proof.
  split; [exists (rp 0 0 1); split; [cbn; auto 10|unfold Rdot, rp; cbn [px py pz vx vy vz]; rcbn; lra]|].
  intros p Hp. destruct (tetra_heights p Hp) as [-> | ->]; lra.
Qed.
Example ex_count : layers_count (1 - 0) (3 / 10) = 4%Z.
Proof.
  unfold layers_count. apply Zceil_imp. cbn. lra.
Qed.

(** ** float64: runs *)
Section Runs.
Let AF := ArithF64 elem0.
Existing Instance AF.
Definition gs0 : @gsett AF := GSett (nlit 175 100) n1 (nlit 2 10) (nlit 4 10) false 3000 1500 2000 false 0 n0.
Definition sett0 (lh : @num AF) : @settings AF :=
  Settings gs0 EmptyString (nlit 1 100) lh (nlit 8 10) 20 60 200 0 (zpt 0 0 0) EmptyString EmptyString n0 (V3 n0 n0 n1) false n0 0 0 0.
Definition tetraF : @mesh AF :=
  let a := zpt 0 0 0 in let b := zpt 1 0 0 in let c := zpt 0 1 0 in let d := zpt 0 0 1 in
  [newTriangle a c b; newTriangle a b d; newTriangle b c d; newTriangle c a d].

(** four layers, each with one closed triangle *)
Example ex_run : match sliceByVector env0 tetraF axisZ (sett0 (nlit 3 10)) with
  | Ok ls => map (fun l => (l_order l, map (fun p => (isClosed p, length p)) (l_paths l))) ls
  | _ => []
  end = map (fun i => (i, [(true, 4%nat)])) [0; 1; 2; 3]%Z.
Proof. vm_compute. reflexivity. Qed.

(** the hypotheses of [C22_handed_float] *)
Example ex_float : Forall (pt_fin elem0) (vertices tetraF) /\
  (let '(mn, mx) := m_minMaxZ tetraF axisZ in Bltb mn mx && is_finite (f64_sub mx mn)) = true.
Proof.
  split; [|vm_compute; reflexivity]. unfold vertices, tetraF. cbn [flat_map newTriangle t1 t2 t3 app].
  repeat (apply Forall_cons; [unfold pt_fin; cbn [zpt px py pz]; repeat split; vm_compute; reflexivity|]). apply Forall_nil.
Qed.

(** a triangle lying between two layers is handed over although it does not reach
    the plane, so "exactly the triangles that meet the plane" would be false *)
Example C22_exactly_refuted : match slicing_jobs env0 [newTriangle (zpt 0 0 0) (zpt 1 0 0) (zpt 0 1 1); newTriangle (zpt 0 0 0) (zpt 1 0 0) (zpt 0 1 10)]
    axisZ (sett0 (nlit 10 1)) with
  | Ok [j] => existsb (fun t => Bltb (t_maxZ t axisZ) (pz (pl_p (j_plane j)))) (j_triangles j)
  | _ => false
  end = true.
Proof. vm_compute. reflexivity. Qed.

(** two flat triangles above each other: one layer, no section, panic *)
Example ex_panic : match sliceByVector env0 [newTriangle (zpt 0 0 0) (zpt 1 0 0) (zpt 0 1 0); newTriangle (zpt 0 0 1) (zpt 1 0 1) (zpt 0 1 1)]
    axisZ (sett0 (nlit 10 1)) with Panic => true | _ => false end = true.
Proof. vm_compute. reflexivity. Qed.

(** with more layers the outermost two are dropped, the other empty ones stay *)
Example ex_trim : match sliceByVector env0 [newTriangle (zpt 0 0 0) (zpt 1 0 0) (zpt 0 1 0); newTriangle (zpt 0 0 1) (zpt 1 0 1) (zpt 0 1 1)]
    axisZ (sett0 (nlit 2 10)) with Ok ls => map l_order ls | _ => [] end = [1; 2; 3]%Z.
Proof. vm_compute. reflexivity. Qed.
End Runs.

Print Assumptions C20_strided.
Print Assumptions C20_no_race.
Print Assumptions C20_copyTriangles.
Print Assumptions C21_pipeline.
Print Assumptions C21_arrival_irrelevant.
Print Assumptions C21_layers.
Print Assumptions C22_handed.
Print Assumptions C22_layers.
Print Assumptions C22_handed_float.
Print Assumptions C23_heights.
Print Assumptions C23_points.
Print Assumptions C24_empty_mesh.
Print Assumptions C24_no_layer_panics.
Print Assumptions C24_flat_panics.
Print Assumptions C24_panics_iff.
Print Assumptions C25_trim.
