(** * C114 The parts of a print by planes do not get in each other's way *)
From Coq Require Import String Reals Lra Lia List Bool ZArith NArith PeanoNat Permutation.
From Flocq Require Import Core.Raux.
From Verif Require Import Arith ArithR Prim Path PathClaims GeomSpec GeomProofs MeshProofs Helpers Gcode GcodeSpec GcodeInstr GcodeInv GcodeClaims GcodeText GcodeProofs GcodeProofs2 GcodeProofs3 TextOK GcodeProofs5 GcodeProofs4 Properties_Gcode
  Slicer SlicerClaims SlicerProofs SlicerProofs2 Properties_Path Properties_Slicer MinProofs Fill FillClaims FillProofs FillProofs2 Properties_Fill Vip VipClaims VipProofs VipReal VipMore Properties_Vip Main MainClaims Properties_Main WhereClaims WhereProofs Properties_Where
  HelperProofs2 SidesProofs LevelProofs.
From Verif Require Stl.
Import ListNotations.
Close Scope Z_scope.
Close Scope num_scope.
Close Scope string_scope.
Open Scope list_scope.
Local Open Scope R_scope.

(** ** Vocabulary *)
(** height of the point [q] of the model when the bed is turned by [a] degrees about the vertical
    line through [c], then tilted by [b] degrees about the line through [c] along X *)
Definition bed_height (c : Rpoint) (a : R) (b : Z) (q : Rpoint) : R :=
  let r d := PI * d / 180 in
  let y := - (X q - X c) * sin (r a) + (Y q - Y c) * cos (r a) in
  Z3 c + (y * sin (r (IZR b)) + (Z3 q - Z3 c) * cos (r (IZR b))).

(** the angles of the bed for the parts: as it stands for the first, those of the k-th plane for
    the part above it *)
Definition angles (ps : list (@aplane ArithR)) : list (R * Z) :=
  (0, 0%Z) :: map (fun p => (ap_rotz p, if ap_tilted p then 60%Z else 0%Z)) ps.

(** how much lower than something printed before a part may be: twice the tolerance of the cut,
    the rounding of the sections by every cut, and the rounding of the text *)
Definition clearance (n : nat) : R := 4 / 10 ^ 6 + INR n / 10 ^ 8 + slack.

(** ** The bed during the print moves of a command *)
Definition bed_at (a : R) (b : Z) (e : event) : Prop :=
  m_disp (ev_before e) 1 = V (A := ArithR) a /\ m_disp (ev_before e) 2 = VZ b.

Lemma quiet_events sett c u v : forall is m, Forall (path_instr (A := ArithR) sett) is -> m_tool m = 0%Z -> m_disp m 1 = u -> m_disp m 2 = v ->
  Forall (fun e => m_disp (ev_before e) 1 = u /\ m_disp (ev_before e) 2 = v) (events c m is).
Proof.
  intros is. revert c. induction is as [|i r IH]; intros c m F T D1 D2; cbn [events]; constructor; [cbn [ev_before]; auto|].
  inversion F as [|? ? Hi Fr]; subst. apply IH; [exact Fr| | |].
  - rewrite (proj2 (path_instr_exec _ _ m Hi)). exact T.
  - now apply (path_instr_bed sett).
  - now apply (path_instr_bed sett).
Qed.

Lemma layers_bed sett ls u v : forall s s' is c m, i_layers (A := ArithR) sett s ls = Ok (s', is) -> (0 <= layerIndex s)%Z ->
  m_tool m = 0%Z -> m_disp m 1 = u -> m_disp m 2 = v ->
  Forall (fun e => m_disp (ev_before e) 1 = u /\ m_disp (ev_before e) 2 = v) (events c m is) /\
  m_tool (run m is) = 0%Z /\ m_disp (run m is) 1 = u /\ m_disp (run m is) 2 = v.
Proof.
  intros s s' is c m E Hk T D1 D2.
  set (Inv := fun (_ : gstate) (m : mach) => m_tool m = 0%Z /\ m_disp m 1 = u /\ m_disp m 2 = v).
  set (P := fun e => m_disp (ev_before e) 1 = u /\ m_disp (ev_before e) 2 = v).
  enough (K : steps_ok Inv P c m is s' /\ (0 <= layerIndex s')%Z /\ (fun _ => True) s') by (destruct K as [[K1 K2] _]; split; [exact K1|exact K2]).
  refine (layers_inv sett (fun _ => True) Inv P (fun _ => True) _ _ _ _ _ _ _ _ _ ls _ s s' is c m E Hk I (conj T (conj D1 D2))); unfold Inv, P, steps_ok.
  - cbn [ev_before]. tauto.
  - cbn [ev_before]. tauto.
  - tauto.
  - intros c0 s0 m0 (A1 & A2 & A3). unfold i_fan. destruct (Bool.eqb _ _); [split; [constructor|tauto]|].
    destruct (fan_for sett (layerIndex s0)); (split; [repeat constructor; cbn [ev_before]; assumption|cbn; auto]).
  - tauto.
  - intros c0 s0 m0 (A1 & A2 & A3). unfold i_speed. destruct (_ =? _)%Z; [split; [constructor|tauto]|].
    split; [repeat constructor; cbn [ev_before]; assumption|cbn; auto].
  - intros c0 s0 m0 p0 p _ _ (A1 & A2 & A3). pose proof (i_path_shape sett s0 p0 p) as Sh. split; [now apply (quiet_events sett)|].
    rewrite (path_instrs_bed _ _ 1%Z ltac:(discriminate) _ Sh A1), (path_instrs_bed _ _ 2%Z ltac:(discriminate) _ Sh A1), (proj2 (path_instrs_run _ _ m0 Sh)). auto.
  - intros c0 s0 m0 (A1 & A2 & A3). unfold i_reset. destruct (_ <? _)%num; [|split; [constructor|tauto]].
    split; [repeat constructor; cbn [ev_before]; assumption|cbn; auto].
  - tauto.
  - apply Forall_forall. intros l _. repeat split; apply Forall_forall; auto.
Qed.

Lemma cmds_bed sett cs : forall s s' is c m t, i_cmds (A := ArithR) sett s cs = Ok (s', is) -> (0 <= layerIndex s)%Z -> Forall angle_ok cs ->
  bed_inv s m -> V (st_t2 s) = VZ t ->
  Forall (fun e => is_print (ev_instr e) = true ->
    exists k a b ls l, nth_error (print_beds (st_t1 s) t cs) k = Some (a, b) /\ nth_error (printed cs) k = Some ls /\ In l ls /\ moves_in l e /\ bed_at a b e)
    (events c m is).
Proof.
  induction cs as [|cmd r IH]; intros s s' is c m t E Hk F B Ht.
  - cbn in E. apply Ok_inj in E. destruct E as [<- <-]. constructor.
  - apply i_cmds_cons_inv in E. destruct E as (s1 & o1 & o2 & E1 & E2 & ->).
    inversion F as [|? ? Fc Fr]; subst.
    rewrite events_app. apply Forall_app. destruct (bed_cmd cmd) eqn:Bc.
    + split.
      * pose proof (bed_no_print _ _ _ _ _ c m Bc E1) as N. eapply Forall_impl; [|exact N]. cbn. intros e H1 H2. congruence.
      * destruct (i_bed_frame _ _ _ _ _ Bc E1) as (_ & L & _). pose proof (bed_cmd_inv cmd sett s s1 o1 m Fc Bc E1 B) as B1.
        assert (Hk1 : (0 <= layerIndex s1)%Z) by lia.
        assert (W : exists t1, V (st_t2 s1) = VZ t1 /\ print_beds (st_t1 s) t (cmd :: r) = print_beds (st_t1 s1) t1 r /\ printed (cmd :: r) = printed r).
        { destruct cmd; try discriminate Bc; cbn [i_cmd] in E1; apply Ok_inj in E1; destruct E1 as [<- _]; cbn [st_t1 st_t2 set_t1 set_t2 print_beds printed].
          all: first [exists t; split; [assumption|split; reflexivity]|exists 60%Z; split; [apply tok_60|split; reflexivity]|exists 0%Z; split; [apply tok_0|split; reflexivity]]. }
        destruct W as (t1 & W1 & W2 & W3). rewrite W2, W3. exact (IH s1 s' o2 _ _ t1 E2 Hk1 Fr B1 W1).
    + destruct cmd as [| | | |ls]; try discriminate Bc. cbn [i_cmd] in E1. cbn [print_beds printed].
      destruct B as (B0 & [B1 B2] & [B3 B4]).
      destruct (layers_bed sett ls (V (st_t1 s)) (VZ t) s s1 o1 c m E1 Hk B0 B2 ltac:(now rewrite B4, Ht)) as (Q1 & Q2 & Q3 & Q4).
      destruct (i_layers_t _ _ _ _ _ E1) as [T1 T2].
      destruct (markers_layers sett ls s s1 o1 (Z.to_nat (layerIndex s)) ltac:(lia) E1) as [_ L].
      split.
      * pose proof (layers_among _ _ _ _ _ c m E1 Hk) as G. rewrite Forall_forall in G, Q1 |- *. intros e He Hp.
        destruct (G e He Hp) as (j & l & _ & H2 & H3). exists 0%nat, (st_t1 s), t, ls, l. split; [reflexivity|]. split; [reflexivity|].
        split; [now apply nth_error_In in H2|]. split; [exact H3|exact (Q1 e He)].
      * assert (BI : bed_inv s1 (run m o1)) by (unfold bed_inv; rewrite T1, T2; rewrite Q3, Q4; auto).
        pose proof (IH s1 s' o2 (see_all c o1) (run m o1) t E2 ltac:(lia) Fr BI ltac:(now rewrite T2)) as K. rewrite T1 in K.
        eapply Forall_impl; [|exact K]. intros e H Hp. destruct (H Hp) as (k & a & b & ls' & l & H'). exists (Datatypes.S k), a, b, ls', l. exact H'.
Qed.

(** ** Planes that are read *)
Lemma read_lines_normal parse : forall ls ps, read_lines (A := ArithR) parse ls = Ok ps -> Forall (fun p => pl_n (ap_plane p) = read_normal (ap_tilted p) (ap_rotz p)) ps.
Proof.
  induction ls as [|l r IH]; intros ps; cbn [read_lines]; [intros [= <-]; constructor|].
  destruct (Nat.leb Stl.max_token (length l)); [intros [= <-]; constructor|]. intros E.
  destruct (parsePlane parse _) as [p| |] eqn:P; cbn [rbind] in E; try discriminate.
  destruct (read_lines parse r) as [ps'| |]; cbn [rbind] in E; try discriminate. injection E as <-. constructor; [|now apply IH].
  unfold parsePlane in P. cbv zeta in P.
  destruct (word_tail _ 3) as [w3| |]; cbn [rbind] in P; try discriminate.
  destruct (word_tail _ 4) as [w4| |]; cbn [rbind] in P; try discriminate.
  destruct (word_tail _ 0) as [w0| |]; cbn [rbind] in P; try discriminate.
  destruct (word_tail _ 1) as [w1| |]; cbn [rbind] in P; try discriminate.
  destruct (word_tail _ 2) as [w2| |]; cbn [rbind] in P; try discriminate.
  injection P as <-. reflexivity.
Qed.
Lemma read_normals parse file ps : readPlanes (A := ArithR) parse file = Ok ps -> Forall (fun p => pl_n (ap_plane p) = read_normal (ap_tilted p) (ap_rotz p)) ps.
Proof. unfold readPlanes. destruct file; [apply read_lines_normal|]. intros [= <-]. constructor. Qed.

Lemma read_unit b a : unit3 (read_normal (A := ArithR) b a).
Proof.
  unfold unit3. destruct b.
  - rewrite read_tilted. unfold rv. cbn [vx vy vz]. pose proof sq3 as S. pose proof (sin2_cos2 (toRadians (A := ArithR) a)) as SC. unfold Rsqr in SC.
    set (s := sin _) in *. set (c := cos _) in *. 
    replace (- (sqrt 3 / 2) * s * (- (sqrt 3 / 2) * s) + sqrt 3 / 2 * c * (sqrt 3 / 2 * c) + 1 / 2 * (1 / 2)) with (sqrt 3 * sqrt 3 / 4 * (s * s + c * c) + 1 / 4) by field.
    rewrite S, SC. field.
  - rewrite read_flat. unfold axisZ. cbn [vx vy vz]. rcbn. ring.
Qed.

(** ** Heights *)
Lemma bed_height_dot (c : Rpoint) (a : R) (b : bool) (q : Rpoint) :
  bed_height c a (if b then 60%Z else 0%Z) q = Z3 c + sd (Pl c (read_normal (A := ArithR) b a)) q.
Proof.
  unfold bed_height, sd. cbn [pl_p pl_n]. f_equal. destruct b.
  - rewrite read_tilted, <- rad, <- rad, cos60, sin60. unfold rv. cbn [vx vy vz]. set (s := sin _). set (k := cos _). ring.
  - rewrite read_flat. unfold axisZ. cbn [vx vy vz]. rcbn. replace (PI * 0 / 180) with 0 by field. rewrite sin_0, cos_0. ring.
Qed.
Lemma bed_height_first c q : bed_height c 0 0 q = Z3 q.
Proof. unfold bed_height. replace (PI * 0 / 180) with 0 by field. rewrite sin_0, cos_0. ring. Qed.
Lemma bed_height_cut (c : Rpoint) (p : @aplane ArithR) q : pl_n (ap_plane p) = read_normal (ap_tilted p) (ap_rotz p) ->
  bed_height c (ap_rotz p) (if ap_tilted p then 60%Z else 0%Z) q =
  bed_height c (ap_rotz p) (if ap_tilted p then 60%Z else 0%Z) (pl_p (ap_plane p)) + sd (ap_plane p) q.
Proof. intros N. rewrite !bed_height_dot. destruct p as [[o n] t z]. cbn [ap_plane ap_tilted ap_rotz pl_p pl_n] in *. rewrite <- N. unfold sd. cbn [pl_p pl_n]. ring. Qed.

Lemma turn_vertices (c : Rpoint) (b : bool) (a : R) (m : Rmesh) : exists turn, vertices (inclined c b (turned c a m)) = map turn (vertices m) /\
  forall q, Z3 (turn q) = bed_height c a (if b then 60%Z else 0%Z) q.
Proof.
  set (turn r := pt_rotate (rotationAroundX (A := ArithR) (if b then Ropp 60 else 0)) c (pt_rotate (rotationAroundZ (A := ArithR) a) c r)).
  assert (H : forall q, Z3 (turn q) = bed_height c a (if b then 60%Z else 0%Z) q).
  { intros q. pose proof (height_after c c q (read_normal (A := ArithR) b a) a (if b then Ropp 60 else 0)) as K.
    assert (L : vrotate (vrotate (read_normal b a) (rotationAroundZ (A := ArithR) a)) (rotationAroundX (A := ArithR) (if b then Ropp 60 else 0)) = rv 0 0 1).
    { pose proof (read_level b a) as L. unfold axisZ in L. rcbn. exact L. }
    specialize (K L). cbv zeta in K. change (Z3 (turn q) - Z3 (turn c) = sd (Pl c (read_normal (A := ArithR) b a)) q) in K. rewrite bed_height_dot.
    assert (Tc : Z3 (turn c) = Z3 c).
    { unfold turn, pt_rotate. destruct c as [x y z]. unfold vectorTo, v2p, vadd, p2v. cbn [px py pz].
      match goal with |- context [vrotate (V3 ?a ?b ?c) (rotationAroundZ _)] => fold (rv a b c) end. rewrite rotZ_eq. unfold rv. cbn [vx vy vz px py pz].
      match goal with |- context [vrotate (V3 ?a ?b ?c) (rotationAroundX _)] => fold (rv a b c) end. rewrite rotX_eq. unfold rv, Z3. cbn [vx vy vz px py pz]. rcbn. ring. }
    lra. }
  assert (E : vertices (inclined c b (turned c a m)) = map turn (vertices m)).
  { unfold inclined, turned. destruct b.
    - rewrite !vertices_rotate, map_map. apply map_ext. intros r. unfold turn. 
      assert (Q : @nopp ArithR (@nofZ ArithR 60) = Ropp 60) by (rcbn; reflexivity). now rewrite <- Q.
    - rewrite vertices_rotate. apply map_ext. intros r. unfold turn. set (q := pt_rotate _ _ r).
      unfold pt_rotate. destruct c as [x y z], q as [u v w]. unfold vectorTo, v2p, vadd, p2v. cbn [px py pz].
      match goal with |- context [vrotate (V3 ?a ?b ?c) _] => fold (rv a b c) end. rewrite rotX_eq.
      rewrite (rad 0%R). replace (PI * 0 / 180) with 0 by field. rewrite sin_0, cos_0. unfold rv. cbn [vx vy vz]. rcbn. apply p3_eq; ring. }
  exists turn. split; [exact E|exact H].
Qed.
Lemma turn_height (c : Rpoint) (b : bool) (a : R) (m : Rmesh) v' : In v' (vertices (inclined c b (turned c a m))) ->
  exists v, In v (vertices m) /\ Z3 v' = bed_height c a (if b then 60%Z else 0%Z) v.
Proof.
  destruct (turn_vertices c b a m) as (turn & E & H). rewrite E. intros I. apply in_map_iff in I. destruct I as (v & <- & Hv). exists v. split; [exact Hv|apply H].
Qed.

(** ** The parts *)
(** Cutting by planes one after the other: what is above the k-th plane becomes part k+1, what is
    below it the parts up to k. No part reaches beyond a half-space that contains the model. *)
Theorem C114_parts : forall U (m : Rmesh) (ps : list (@aplane ArithR)) parts, legal U ->
  Forall (fun p => unit3 (pl_n (ap_plane p))) ps -> parted U m ps parts ->
  length parts = Datatypes.S (length ps) /\
  (forall k p, nth_error ps k = Some p ->
    (forall part v, nth_error parts (Datatypes.S k) = Some part -> In v (vertices part) -> - (2 / 10 ^ 6) <= sd (ap_plane p) v) /\
    (forall j part v, (j <= k)%nat -> nth_error parts j = Some part -> In v (vertices part) -> sd (ap_plane p) v <= 2 / 10 ^ 6 + INR k / 10 ^ 8)) /\
  (forall (q : Rplane) B, unit3 (pl_n q) -> (forall v, In v (vertices m) -> sd q v <= B) ->
    forall part v, In part parts -> In v (vertices part) -> sd q v <= B + INR (length ps) / 10 ^ 8).
Proof.
  intros U m ps parts HU F P. split; [now apply parted_length in P|]. split.
  - intros k p Hk. destruct (parted_sides U m ps parts HU F P k p Hk) as [H1 H2]. split; [exact H1|].
    intros j part v Hj Hp Hv. specialize (H2 j part v Hj Hp Hv). unfold cut_slack, step8 in *. lra.
  - intros q B Uq H part v Hp Hv. pose proof (parted_bound U m ps parts q B HU F Uq P H part v Hp Hv) as K. unfold step8 in K. lra.
Qed.

Lemma bounded_sd (c : Rpoint) n v M : unit3 n -> 0 <= M -> Rabs (X c) <= M -> Rabs (Y c) <= M -> Rabs (Z3 c) <= M ->
  Rabs (X v) <= M -> Rabs (Y v) <= M -> Rabs (Z3 v) <= M -> Rabs (sd (Pl c n) v) <= 4 * M.
Proof.
  intros U HM C1 C2 C3 V1 V2 V3. unfold sd. cbn [pl_p pl_n]. pose proof (unit_sum n U) as S.
  set (a := vx n) in *. set (b := vy n) in *. set (d := vz n) in *. clearbody a b d.
  change (Rabs ((X v - X c) * a + (Y v - Y c) * b + (Z3 v - Z3 c) * d) <= 4 * M).
  change (Rabs a + Rabs b + Rabs d <= 2) in S.
  assert (T : forall x y w : R, Rabs x <= M -> Rabs y <= M -> Rabs ((x - y) * w) <= 2 * M * Rabs w).
  { intros x y w Hx Hy. rewrite Rabs_mult. apply Rmult_le_compat_r; [apply Rabs_pos|]. apply Rabs_le_inv in Hx, Hy. apply Rabs_le. lra. }
  pose proof (T _ _ a V1 C1) as T1. pose proof (T _ _ b V2 C2) as T2. pose proof (T _ _ d V3 C3) as T3.
  eapply Rle_trans; [apply Rabs_triang|]. eapply Rle_trans; [apply Rplus_le_compat_r, Rabs_triang|]. 
  assert (2 * M * Rabs a + 2 * M * Rabs b + 2 * M * Rabs d <= 4 * M) by nra. lra.
Qed.

Lemma big_range x : Rabs x <= 10 * 10 ^ 300 -> in_range x.
Proof.
  unfold in_range. intros H. eapply Rle_trans; [exact H|]. replace (10 * 10 ^ 300) with (10 ^ 301) by (change 301%nat with (Datatypes.S 300); rewrite <- tech_pow_Rmult; reflexivity).
  rewrite pow_IZR. apply IZR_le. vm_compute. discriminate.
Qed.

Lemma sd_opp c n v : sd (Pl c (vopp (A := ArithR) n)) v = - sd (Pl c n) v.
Proof. unfold sd, vopp. cbn [pl_p pl_n vx vy vz]. rcbn. ring. Qed.

(** the points of a part on the bed are in the range of the numbers *)
Lemma part_range U (m : Rmesh) ps parts (c : Rpoint) n : legal U -> Forall (fun p => unit3 (pl_n (ap_plane p))) ps -> parted U m ps parts -> unit3 n ->
  INR (length ps) <= 10 ^ 300 -> Rabs (X c) <= 10 ^ 300 -> Rabs (Y c) <= 10 ^ 300 -> Rabs (Z3 c) <= 10 ^ 300 ->
  Forall (fun v => Rabs (X v) <= 10 ^ 300 /\ Rabs (Y v) <= 10 ^ 300 /\ Rabs (Z3 v) <= 10 ^ 300) (vertices m) ->
  forall part v, In part parts -> In v (vertices part) -> in_range (Z3 c + sd (Pl c n) v).
Proof.
  intros HU F P Un Ln C1 C2 C3 Fv part v Hp Hv. apply big_range.
  assert (M0 : 0 <= 10 ^ 300) by (apply pow_le; lra). set (M := 10 ^ 300) in *. clearbody M.
  assert (Un' : unit3 (vopp (A := ArithR) n)) by (unfold unit3, vopp in *; cbn [vx vy vz]; rcbn; rewrite <- Un; ring).
  rewrite Forall_forall in Fv.
  assert (B : forall w, In w (vertices m) -> Rabs (sd (Pl c n) w) <= 4 * M) by (intros w Hw; destruct (Fv w Hw) as (W1 & W2 & W3); now apply bounded_sd).
  assert (K1 : sd (Pl c n) v <= 4 * M + INR (length ps) * step8).
  { apply (parted_bound U m ps parts (Pl c n) (4 * M) HU F Un P) with part; try assumption. intros w Hw. specialize (B w Hw). apply Rabs_le_inv in B. lra. }
  assert (K2 : - sd (Pl c n) v <= 4 * M + INR (length ps) * step8).
  { rewrite <- sd_opp. apply (parted_bound U m ps parts (Pl c (vopp (A := ArithR) n)) (4 * M) HU F Un' P) with part; try assumption. intros w Hw. specialize (B w Hw). apply Rabs_le_inv in B. rewrite sd_opp. lra. }
  assert (S8 : INR (length ps) * step8 <= M) by (pose proof (pos_INR (length ps)); unfold step8; lra).
  apply Rabs_le_inv in C3. apply Rabs_le. lra.
Qed.

(** ** Where the layers of the parts are *)
Definition in_part (c : Rpoint) (a : R) (b : Z) (part : Rmesh) (l : @layer ArithR) : Prop :=
  exists h, (forall p q, In p (layer_paths l) -> In q p -> Z3 q = round8 (A := ArithR) h) /\
    (exists v, In v (vertices part) /\ bed_height c a b v < h) /\ (exists v, In v (vertices part) /\ h < bed_height c a b v).

Lemma parts_layers U (m : Rmesh) (s : @settings ArithR) ps g : legal U -> s_supportsOn s = false -> 0 < s_layerHeight s ->
  Forall (fun p => pl_n (ap_plane p) = read_normal (ap_tilted p) (ap_rotz p)) ps ->
  INR (length ps) <= 10 ^ 300 -> Rabs (X (s_rotationCenter s)) <= 10 ^ 300 -> Rabs (Y (s_rotationCenter s)) <= 10 ^ 300 -> Rabs (Z3 (s_rotationCenter s)) <= 10 ^ 300 ->
  Forall (fun v => Rabs (X v) <= 10 ^ 300 /\ Rabs (Y v) <= 10 ^ 300 /\ Rabs (Z3 v) <= 10 ^ 300) (vertices m) ->
  sliceByPlanes U m s ps = Ok g ->
  exists parts, parted U m ps parts /\ print_beds n0 0 (g_cmds g) = angles ps /\
    forall k a b ls l, nth_error (angles ps) k = Some (a, b) -> nth_error (printed (g_cmds g)) k = Some ls -> In l ls ->
      exists part, nth_error parts k = Some part /\ in_part (s_rotationCenter s) a b part l.
Proof.
  intros HU Hs HL Fn Ln C1 C2 C3 Fv H. set (c := s_rotationCenter s) in *.
  assert (Fu : Forall (fun p => unit3 (pl_n (ap_plane p))) ps) by (eapply Forall_impl; [|exact Fn]; cbn beta; intros p ->; apply read_unit).
  destruct (C51_beds ArithR U m s ps g H) as (parts & fills & fp & ff & _ & P & Bd & K). exists parts. split; [exact P|].
  assert (Z0 : @n0 ArithR = 0) by (rcbn; reflexivity). split; [rewrite Bd; unfold angles; now rewrite Z0|]. clear Z0.
  destruct parts as [|part0 parts]; [destruct K|]. destruct fills as [|first fills]; [destruct K|].
  destruct K as (L0 & LF & Le & first' & Sk & ->).
  assert (Rg : forall b a part v, In part (part0 :: parts) -> In v (vertices part) -> in_range (bed_height c a (if b : bool then 60%Z else 0%Z) v)).
  { intros b a part v Hp Hv. rewrite bed_height_dot. exact (part_range U m ps _ c _ HU Fu P (read_unit b a) Ln C1 C2 C3 Fv part v Hp Hv). }
  intros k a b ls l Ha Hl Hin. destruct k as [|k].
  - cbn [nth_error angles] in Ha, Hl. injection Ha as <- <-. injection Hl as ->. exists part0. split; [reflexivity|].
    assert (R0 : Forall (fun p => in_range (Z3 p)) (vertices part0)).
    { apply Forall_forall. intros v Hv. pose proof (Rg false 0 part0 v (or_introl eq_refl) Hv) as R1. cbv iota in R1. now rewrite bed_height_first in R1. }
    pose proof (part_level U part0 s fp ff first HU Hs HL R0 L0) as G. rewrite Forall_forall in G.
    assert (Q : exists h, level_layer (round8 (A := ArithR) h) l /\ (exists v, In v (vertices part0) /\ Z3 v < h) /\ (exists v, In v (vertices part0) /\ h < Z3 v)).
    { unfold with_skirt in Sk. destruct first as [|l0 r]; subst ls; [destruct Hin|]. destruct Hin as [<-|Hin].
      - destruct (G l0 (or_introl eq_refl)) as (Ul & h & Lv & Q). exists h. split; [now apply skirt_level|exact Q].
      - destruct (G l (or_intror Hin)) as (_ & h & Q). exists h. exact Q. }
    destruct Q as (h & Lv & (v1 & V1 & V2) & (v2 & V3 & V4)). exists h. split; [exact (level_all _ _ Lv)|].
    split; [exists v1|exists v2]; (split; [assumption|]); rewrite bed_height_first; assumption.
  - cbn [nth_error angles] in Ha, Hl. rewrite nth_error_map in Ha. destruct (nth_error ps k) as [p|] eqn:Ep; [|discriminate]. cbn [option_map] in Ha. injection Ha as <- <-.
    assert (Hk : (k < length parts)%nat) by (rewrite Le; apply nth_error_Some; congruence).
    destruct (nth_error parts k) as [part|] eqn:Epart; [|apply nth_error_None in Epart; lia]. exists part. split; [exact Epart|].
    assert (Ec : nth_error (combine parts ps) k = Some (part, p)).
    { clear -Epart Ep. revert ps k Epart Ep. induction parts as [|x xs IH]; intros [|y ys] [|k] A B; cbn in *; try discriminate; [congruence|now apply IH]. }
    assert (Lp : layers_of U s fp ff (inclined c (ap_tilted p) (turned c (ap_rotz p) part)) ls).
    { clear -LF Ec Hl. revert k Ec Hl. induction LF as [|x f xs fs Hx LF IH]; intros [|k] A B; cbn [nth_error] in *; try discriminate.
      - injection A as ->. injection B as ->. exact Hx.
      - exact (IH k A B). }
    assert (R0 : Forall (fun p => in_range (Z3 p)) (vertices (inclined c (ap_tilted p) (turned c (ap_rotz p) part)))).
    { apply Forall_forall. intros v Hv. destruct (turn_height c (ap_tilted p) (ap_rotz p) part v Hv) as (w & Hw & ->).
      apply (Rg (ap_tilted p) (ap_rotz p) part w); [right; now apply nth_error_In in Epart|exact Hw]. }
    pose proof (part_level U _ s fp ff ls HU Hs HL R0 Lp) as G. rewrite Forall_forall in G. destruct (G l Hin) as (_ & h & Lv & (v1 & V1 & V2) & (v2 & V3 & V4)).
    exists h. split; [exact (level_all _ _ Lv)|]. 
    destruct (turn_height _ _ _ _ _ V1) as (w1 & W1 & E1). destruct (turn_height _ _ _ _ _ V3) as (w2 & W2 & E2). rewrite E1 in V2. rewrite E2 in V4. eauto 6.
Qed.

(** ** The file *)
(** Every print move of a file by planes belongs to a part: the bed is at the angles of the cut
    plane under that part, the head is at a height between its lowest and its highest point, and
    nothing of the parts printed before is higher than the head by more than the clearance. *)
Theorem C114_above : forall (X0 : @outside ArithR) f out ps,
  good_outside X0 -> legal (ex_U X0) -> fl_slicingType f = "vip"%string -> fl_supportsOn f = false -> 0 < fl_layerHeight f ->
  readPlanes (ex_parse X0) (ex_planes X0) = Ok ps -> ps <> [] ->
  let m := m_shift (ex_mesh X0) (fl_origin f) in
  let c := fl_rotc f in
  INR (length ps) <= 10 ^ 300 -> Forall (fun v => Rabs (X v) <= 10 ^ 300 /\ Rabs (Y v) <= 10 ^ 300 /\ Rabs (Z3 v) <= 10 ^ 300) (c :: vertices m) ->
  goosli X0 f = Ok out ->
  exists head t foot is parts,
    out = (head ++ t ++ foot)%string /\ read_gcode t = Some is /\ parted (ex_U X0) m ps parts /\
    forall m0, m_tool m0 = 0%Z -> m_disp m0 1 = VFin 0 -> m_disp m0 2 = VFin 0 ->
      Forall (fun e => is_print (ev_instr e) = true ->
        exists k a b part, nth_error parts k = Some part /\ nth_error (angles ps) k = Some (a, b) /\
          m_disp (ev_before e) 1 = V (A := ArithR) a /\ m_disp (ev_before e) 2 = VFin (b * 1000) /\
          forall mm, mm = ev_before e \/ mm = ev_after e -> exists z, written (m_z mm) z /\
            (exists v, In v (vertices part) /\ bed_height c a b v < z + slack) /\
            (exists v, In v (vertices part) /\ z - slack < bed_height c a b v) /\
            forall j part' v, (j < k)%nat -> nth_error parts j = Some part' -> In v (vertices part') ->
              bed_height c a b v <= z + clearance (length ps)) (events ctx0 m0 is).
Proof.
  intros X0 f out ps G HU Tv Hs HL Rp Np m c Ln Fb H.
  destruct (goosli_inv X0 f out G H) as (g & t & hl & fl & is & s' & Es & E & -> & I & R & _ & _).
  unfold slicing in Es. rewrite Tv in Es. cbn [String.eqb Ascii.eqb Bool.eqb] in Es. unfold Vip.slice in Es. rewrite Rp in Es. cbn [rbind] in Es.
  destruct ps as [|p0 ps0] eqn:Eps; [congruence|]. rewrite <- Eps in *. clear Np.
  pose proof (read_normals _ _ _ Rp) as Fn.
  assert (Fu : Forall (fun p => unit3 (pl_n (ap_plane p))) ps) by (eapply Forall_impl; [|exact Fn]; cbn beta; intros p ->; apply read_unit).
  inversion Fb as [|? ? (C1 & C2 & C3) Fv]; subst x l.
  change (fl_rotc f) with (s_rotationCenter (settingsOf (ex_now X0) f)) in c.
  destruct (parts_layers (ex_U X0) m (settingsOf (ex_now X0) f) ps g HU Hs HL Fn Ln C1 C2 C3 Fv Es) as (parts & P & Bd & K).
  exists hl, t, fl, is, parts. split; [reflexivity|]. split; [exact R|]. split; [exact P|].
  intros m0 T0 D1 D2.
  assert (AO : Forall angle_ok (g_cmds g)).
  { apply Forall_forall. intros cm _. destruct cm; try exact Logic.I. destruct (V_written angle) as (y & (z & Ez & _) & _). exists z. exact Ez. }
  assert (BI : bed_inv (A := ArithR) newState m0).
  { unfold bed_inv. cbn [newState st_t1 st_t2]. rewrite tok_0. repeat split; auto; eexists; reflexivity. }
  pose proof (cmds_bed _ _ _ _ _ ctx0 m0 0%Z I (Z.le_refl 0) AO BI ltac:(apply tok_0)) as W. change (st_t1 (A := ArithR) newState) with (@n0 ArithR) in W. rewrite Bd in W.
  eapply Forall_impl; [|exact W]. intros e He Hp. destruct (He Hp) as (k & a & b & ls & l & N1 & N2 & N3 & N4 & [N5 N6]).
  destruct (K k a b ls l N1 N2 N3) as (part & Pk & h & Lv & (v1 & V1 & V2) & (v2 & V3 & V4)).
  exists k, a, b, part. split; [exact Pk|]. split; [exact N1|]. split; [exact N5|]. split; [exact N6|].
  destruct (N4 Hp) as (p & Hpl & A1 & A2). apply section_layer in Hpl.
  assert (Q : forall mm, among p mm -> exists z, written (m_z mm) z /\ Rabs (z - h) <= slack).
  { intros mm (_ & _ & (q & Iq & Eq)). rewrite Eq. destruct (V_written (pz q)) as (z & Wz & Bz). exists z. split; [exact Wz|].
    pose proof (Lv p q Hpl Iq) as Zq. unfold Z3 in Zq. rewrite Zq in Bz. pose proof (round8_near h) as Rn. apply Rabs_le_inv in Bz, Rn. unfold slack. apply Rabs_le. lra. }
  assert (Hb : forall j part' v, (j < k)%nat -> nth_error parts j = Some part' -> In v (vertices part') -> bed_height c a b v <= h + (4 / 10 ^ 6 + INR (length ps) / 10 ^ 8)).
  { intros j part' v Hj Hpj Hv. destruct k as [|k]; [lia|]. cbn [angles nth_error] in N1. rewrite nth_error_map in N1.
    destruct (nth_error ps k) as [q|] eqn:Eq; [|discriminate]. cbn [option_map] in N1. injection N1 as <- <-.
    destruct (parted_sides _ m ps parts HU Fu P k q Eq) as [S1 S2].
    specialize (S1 part v1 Pk V1). specialize (S2 j part' v ltac:(lia) Hpj Hv).
    assert (Nq : pl_n (ap_plane q) = read_normal (ap_tilted q) (ap_rotz q)) by (rewrite Forall_forall in Fn; apply Fn; now apply nth_error_In in Eq).
    rewrite (bed_height_cut _ q v1 Nq) in V2. rewrite (bed_height_cut c q v Nq). fold c in V2.
    assert (Lk : INR k <= INR (length ps)) by (apply le_INR; apply Nat.lt_le_incl; apply nth_error_Some; congruence).
    unfold cut_slack, step8 in *. lra. }
  intros mm Hm. destruct (Q mm) as (z & Wz & Bz); [destruct Hm as [-> | ->]; assumption|]. apply Rabs_le_inv in Bz. exists z. split; [exact Wz|].
  fold c in V2, V4.
  split; [exists v1; split; [exact V1|lra]|]. split; [exists v2; split; [exact V3|lra]|].
  intros j part' v Hj Hpj Hv. specialize (Hb j part' v Hj Hpj Hv). unfold clearance. lra.
Qed.

(** ** C115 Planes mode succeeds *)
(** the parts as they stand on the bed *)
Definition bedded {A : Arith} (c : point) (ps : list aplane) (parts : list mesh) : list mesh :=
  match parts with
  | [] => []
  | part :: r => part :: map (fun mp => inclined c (ap_tilted (snd mp)) (turned c (ap_rotz (snd mp)) (fst mp))) (combine r ps)
  end.

Section Any.
Context {A : Arith} {L : LtOK A} {T : TextOK A}.

Lemma parted_fun U (m : mesh) ps parts : parted U m ps parts -> forall parts', parted U m ps parts' -> parts = parts'.
Proof.
  induction 1 as [m|m ps p up down parts C P IH]; intros parts' P'; inversion P' as [m' E1 E2|m' ps' p' up' down' q C' P'' E1 E2]; subst; try reflexivity.
  - destruct ps'; discriminate.
  - destruct ps; discriminate.
  - apply app_inj_tail in E2. destruct E2 as [-> ->]. rewrite C in C'. injection C' as <- <-. now rewrite (IH q P'').
Qed.

Lemma lines_nonempty (pth out : path) (w : num) (n : vector) : makeOffset pth w n = Some out -> out <> [].
Proof.
  unfold makeOffset. destruct (length pth <? 2)%nat; [discriminate|]. cbv zeta.
  destruct (length (keep_lines _ _) <? 2)%nat eqn:K; [discriminate|]. intros [= <-]. apply Nat.ltb_ge in K.
  match goal with |- minimizeLines (lines_points ?k) <> [] => destruct k as [|l r]; [cbn in K; lia|]; cbn [lines_points] end.
  now destruct (minimize_ok (lp1 l :: map lp2 (l :: r)) (lp1 l) ltac:(discriminate)) as (Q & _).
Qed.
Lemma offset_nonempty (pth : path) n w v : Forall (fun q : path => q <> []) (offset pth n w v).
Proof.
  unfold offset. destruct (makeOffset pth w v) as [q|] eqn:E; [|constructor]. constructor; [exact (lines_nonempty _ _ _ _ E)|].
  clear E. revert q. induction (Z.to_nat (n - 1)) as [|k IH]; intros q; cbn [offset_loop]; [constructor|].
  destruct (makeOffset q w v) as [r|] eqn:E; [|constructor]. constructor; [exact (lines_nonempty _ _ _ _ E)|apply IH].
Qed.

Definition full_layer (l : layer) : Prop := Forall (fun q : path => q <> []) (layer_paths l).

Lemma full_iff l : full_layer l <-> Forall (fun q : path => q <> []) (l_paths l) /\ Forall (fun q : path => q <> []) (l_middle l) /\
  Forall (fun q : path => q <> []) (oslice (l_inner l)) /\ Forall (fun q : path => q <> []) (l_fill l).
Proof. unfold full_layer, layer_paths. rewrite !Forall_app. tauto. Qed.

Lemma wall_full n w l : full_layer l -> full_layer (wall_layer n w l) /\ l_fill (wall_layer n w l) = l_fill l.
Proof.
  intros F. unfold wall_layer.
  assert (G : forall ps l', full_layer l' -> full_layer (fold_left (wall_path n w) ps l') /\ l_fill (fold_left (wall_path n w) ps l') = l_fill l').
  { induction ps as [|p ps IH]; intros l' F'; cbn [fold_left]; [auto|].
    assert (K : full_layer (wall_path n w l' p) /\ l_fill (wall_path n w l' p) = l_fill l').
    { unfold wall_path. destruct (length p <? 2)%nat; [auto|]. pose proof (offset_nonempty p n w (l_norm l')) as O.
      destruct (offset p n w (l_norm l')) as [|o os]; [auto|]. split; [|reflexivity].
      apply full_iff in F'. destruct F' as (F1 & F2 & F3 & F4). apply full_iff. cbn [l_paths l_middle l_inner l_fill oapp oslice].
      destruct (@exists_last _ (o :: os)) as (us & u & E); [discriminate|].
      assert (El : last (o :: os) o = u) by (rewrite E; apply last_last). assert (Er : removelast (o :: os) = us) by (rewrite E; apply removelast_last).
      rewrite El, Er. rewrite E in O. apply Forall_app in O. destruct O as [O1 O2]. repeat split; try assumption; apply Forall_app; auto. }
    destruct K as [K1 K2]. destruct (IH _ K1) as [I1 I2]. split; [exact I1|congruence]. }
  apply G. exact F.
Qed.

Lemma fill_full U ls fp ff (s : settings) out : Forall (fun l => full_layer l /\ l_fill l = []) ls -> fillLayers U ls fp ff s = Ok out -> Forall full_layer out.
Proof.
  intros B F. destruct (C47_fill U ls fp ff s) as (out' & F' & S & K).
  { eapply Forall_impl; [|exact B]. cbn beta. intros l (_ & ->). constructor. }
  rewrite F in F'. injection F' as <-. apply Forall_forall. intros l' Hl'. apply In_nth_error in Hl'. destruct Hl' as (j & Hj').
  assert (Hj : exists l, nth_error ls j = Some l /\ same_but_fill l l').
  { clear -S Hj'. revert j Hj'. induction S as [|x y ls out H S IH]; intros [|j]; cbn; try discriminate; [|apply IH]. intros [= <-]. eauto. }
  destruct Hj as (l & Hj & (_ & _ & Q1 & Q2 & Q3)). rewrite Forall_forall in B. destruct (B l (nth_error_In _ _ Hj)) as [Fl Fe].
  destruct (K j l l' Hj Hj') as (pls & _ & _ & _ & Ff & _).
  apply full_iff in Fl. destruct Fl as (F1 & F2 & F3 & _). apply full_iff. rewrite <- Q1, <- Q2, <- Q3. split; [exact F1|]. split; [exact F2|]. split; [exact F3|].
  apply Forall_forall. intros p Hp. rewrite Forall_forall in Ff. destruct (Ff p Hp) as (h & Hh1 & Hh2). rewrite Fe in Hh1. cbn [app] in Hh1.
  apply in_flat_map in Hh1. destruct Hh1 as (pl & _ & Hh1). destruct (segments_of_hits U (FillClaims.contours l) pl) as (Fp & _). rewrite Forall_forall in Fp.
  destruct (Fp h Hh1) as (a & b & ->). destruct Hh2 as [-> | ->]; discriminate.
Qed.

Lemma prepared_full U m (s : settings) fp ff add : legal U -> sliceByVector U m axisZ s = Ok add ->
  exists ls, prepareLayers U add s fp ff = Ok ls /\ Forall full_layer ls.
Proof.
  intros HU E. pose proof (bare_layers _ _ _ _ _ HU E) as B. pose proof (slice_nonempty _ _ _ _ _ HU E) as N.
  assert (F0 : Forall (fun l => full_layer l /\ l_fill l = []) add).
  { rewrite Forall_forall in B, N |- *. intros l Hl. destruct (B l Hl) as (B1 & B2 & B3). split; [|exact B3].
    apply full_iff. rewrite B1, B2, B3. split; [exact (N l Hl)|]. repeat split; constructor. }
  unfold prepareLayers. set (ls1 := if (addWalls s >? 0)%Z then _ else add).
  assert (F1 : Forall (fun l => full_layer l /\ l_fill l = []) ls1).
  { unfold ls1. destruct (addWalls s >? 0)%Z; [|exact F0]. apply Forall_forall. intros l Hl. apply in_map_iff in Hl. destruct Hl as (l0 & <- & Hl0).
    rewrite Forall_forall in F0. destruct (F0 l0 Hl0) as [G1 G2]. destruct (wall_full (addWalls s) (LineWidth (s_g s)) l0 G1) as [W1 W2]. split; [exact W1|congruence]. }
  destruct (C47_fill U ls1 fp ff s) as (out & F & _).
  { eapply Forall_impl; [|exact F1]. cbn beta. intros l (_ & ->). constructor. }
  exists out. split; [exact F|]. exact (fill_full U ls1 fp ff s out F1 F).
Qed.

Lemma skirt_full c w l : full_layer l -> full_layer (skirtPathes l c w).
Proof.
  intros F. unfold skirtPathes. destruct (c =? 0)%Z; [exact F|]. apply full_iff in F. destruct F as (F1 & F2 & F3 & F4). apply full_iff. cbn [l_paths l_middle l_inner l_fill].
  split; [|auto]. apply Forall_forall. intros x Hx. apply in_flat_map in Hx. destruct Hx as (p & Hp & Hx). rewrite Forall_forall in F1.
  destruct (length p <? 2)%nat; [destruct Hx|]. apply in_app_iff in Hx. destruct Hx as [Hx|[<-|[]]]; [|auto]. apply in_rev in Hx.
  pose proof (offset_nonempty p c w (vopp (l_norm l))) as O. rewrite Forall_forall in O. auto.
Qed.

Lemma layers_of_full U s fp ff m ls : legal U -> layers_of U s fp ff m ls -> Forall full_layer ls.
Proof. intros HU (add & E & P). destruct (prepared_full U m s fp ff add HU E) as (ls' & P' & F). rewrite P in P'. injection P' as <-. exact F. Qed.

Lemma printed_paths (cs : list command) : cmds_paths cs = flat_map layer_paths (concat (printed cs)).
Proof.
  unfold cmds_paths. f_equal. induction cs as [|c cs IH]; [reflexivity|]. destruct c; cbn [flat_map cmd_layers printed app concat]; auto. now rewrite IH.
Qed.

Lemma planes_loop_ok U (s : settings) fp ff : legal U -> forall parts beds i rot g, length parts = length beds ->
  Forall (fun mb => exists ls, sliceByVector U (bed_mesh s (snd (fst mb)) (snd mb) (fst (fst mb))) axisZ s = Ok ls) (combine (combine parts (seq i (length parts))) beds) ->
  exists g', planes_loop U s fp ff i rot parts beds g = Ok g'.
Proof.
  intros HU. induction parts as [|part parts IH]; intros [|pl beds] i rot g Le F; try discriminate; cbn [planes_loop]; [eauto|].
  cbn [length seq combine] in F. inversion F as [|? ? (add & Ea) F']; subst. cbn [fst snd] in Ea.
  destruct (bed_cmds i pl rot) as [cmds rot']. rewrite Ea. cbn [rbind].
  destruct (prepared_full U _ s fp ff add HU Ea) as (ls & -> & _). cbn [rbind]. apply IH; [now injection Le|exact F'].
Qed.

(** with a planes file, the command succeeds exactly if every part can be sliced *)
Theorem C115_planes : forall (X0 : outside) (f : flags) ps parts,
  good_outside X0 -> legal (ex_U X0) -> fl_slicingType f = "vip"%string ->
  readPlanes (ex_parse X0) (ex_planes X0) = Ok ps -> ps <> [] ->
  let s := settingsOf (ex_now X0) f in
  parted (ex_U X0) (m_shift (ex_mesh X0) (fl_origin f)) ps parts ->
  (exists out, goosli X0 f = Ok out) <->
  Forall (fun m => exists ls, sliceByVector (ex_U X0) m axisZ s = Ok ls) (bedded (s_rotationCenter s) ps parts).
Proof.
  intros X0 f ps parts (P1 & P2 & D & Hh & Hf) HU Tv Rp Np s P. unfold goosli, slicing. rewrite Tv. cbn [String.eqb Ascii.eqb Bool.eqb].
  unfold Vip.slice. rewrite Rp. cbn [rbind]. destruct ps as [|p0 ps0] eqn:Eps; [congruence|]. rewrite <- Eps in *. clear Np. fold s.
  set (m := m_shift (ex_mesh X0) (fl_origin f)) in *. set (U := ex_U X0) in *.
  split.
  - intros (out & E). destruct (sliceByPlanes U m s ps) as [g| |] eqn:Es; cbn [rbind] in E; try discriminate E. clear E.
    destruct (C51_beds A U m s ps g Es) as (parts' & fills & fp & ff & _ & P' & _ & K). rewrite <- (parted_fun U m ps parts P parts' P') in K.
    destruct parts as [|part parts]; [destruct K|]. destruct fills as [|first fills]; [destruct K|]. destruct K as ((add & Ea & _) & LF & _).
    cbn [bedded]. constructor; [eauto|]. clear -LF. induction LF as [|x fl xs fls (a & Hx & _) LF IH]; cbn [map]; constructor; [eauto|exact IH].
  - intros F. 
    assert (Eg : exists g, sliceByPlanes U m s ps = Ok g).
    { unfold sliceByPlanes. destruct (calcFillPlanes m s) as [fp ff]. destruct (parted_total U (lg_ends U HU) ps m []) as (parts0 & E0). rewrite E0. cbn [rbind].
      apply cut_parts_parted in E0. destruct E0 as (parts' & -> & P'). rewrite app_nil_r. rewrite <- (parted_fun U m ps parts P parts' P').
      pose proof (parted_length _ _ _ _ P) as Le. apply planes_loop_ok; [exact HU|unfold calcBedPlanes; cbn [length]; now rewrite map_length|].
      destruct parts as [|part parts]; [discriminate|]. cbn [length] in Le. injection Le as Le. unfold calcBedPlanes. cbn [length seq combine]. cbn [bedded] in F. inversion F as [|? ? F1 F2]; subst x l.
      constructor; [exact F1|]. clear -F2 Le.
      assert (G : forall k, Forall (fun mb : mesh * nat * bplane => exists ls, sliceByVector U (bed_mesh s (snd (fst mb)) (snd mb) (fst (fst mb))) axisZ s = Ok ls)
        (combine (combine parts (seq (Datatypes.S k) (length parts))) (map (fun p => BP (ap_tilted p) (ap_rotz p)) ps))); [|apply G].
      clear Le. revert ps F2. induction parts as [|part parts IH]; intros [|p ps] F2 k; cbn [length seq combine map]; try constructor.
      - cbn [combine map] in F2. apply Forall_inv in F2. cbn [fst snd] in *. unfold bed_mesh. cbn [Nat.eqb bp_rotz bp_tilted]. exact F2.
      - apply IH. cbn [combine map] in F2. now apply Forall_inv_tail in F2. }
    destruct Eg as (g & Eg). rewrite Eg. cbn [rbind].
    destruct (C51_beds A U m s ps g Eg) as (parts' & fills & fp & ff & _ & _ & _ & K).
    destruct (proj1 (proj2 (C61_output_total g))) as (t & Et).
    { rewrite printed_paths. intros Hin. apply in_flat_map in Hin. destruct Hin as (l & Hl & Hin). apply in_concat in Hl. destruct Hl as (ls & Hls & Hl).
      assert (Fl : full_layer l); [|unfold full_layer in Fl; rewrite Forall_forall in Fl; now apply (Fl [] Hin)].
      destruct parts' as [|part parts']; [destruct K|]. destruct fills as [|first fills]; [destruct K|]. destruct K as (L0 & LF & _ & first' & Sk & Ep).
      rewrite Ep in Hls. destruct Hls as [<-|Hls].
      - pose proof (layers_of_full _ _ _ _ _ _ HU L0) as G. unfold with_skirt in Sk. destruct first as [|l0 r]; subst first'; [destruct Hl|].
        rewrite Forall_forall in G. destruct Hl as [<-|Hl]; [apply skirt_full; apply G; now left|apply G; now right].
      - assert (G : exists mm, layers_of U s fp ff mm ls).
        { clear -LF Hls. induction LF as [|x fl xs fls Hx LF IH]; [destruct Hls|]. destruct Hls as [<-|Hls]; [eauto|auto]. }
        destruct G as (mm & G). apply (layers_of_full _ _ _ _ _ _ HU) in G. rewrite Forall_forall in G. exact (G l Hl). }
    destruct (C75_whole_file (ex_order1 X0) (ex_order2 X0) g s t P1 P2 D Et) as (out & _ & _ & _ & C & _).
    exists out. rewrite Hh, Hf. exact C.
Qed.
End Any.

(** in exact arithmetic: if every part that is not empty is taller on the bed than one layer *)
Lemma bedded_nth (c : Rpoint) (ps : list (@aplane ArithR)) parts k x : nth_error (bedded c ps parts) k = Some x ->
  exists part a b, nth_error parts k = Some part /\ nth_error (angles ps) k = Some (a, b) /\ (part = [] -> x = []) /\ (part <> [] -> x <> []) /\
    (exists tf, b = (if tf : bool then 60%Z else 0%Z)) /\
    exists turn, vertices x = map turn (vertices part) /\ forall q, Z3 (turn q) = bed_height c a b q.
Proof.
  destruct parts as [|part parts]; [destruct k; discriminate|]. destruct k as [|k]; cbn [bedded nth_error angles].
  - intros [= <-]. exists part, 0, 0%Z. split; [reflexivity|]. split; [reflexivity|]. split; [auto|]. split; [auto|]. split; [now exists false|].
    exists (fun q => q). split; [now rewrite map_id|]. intros q. symmetry. apply bed_height_first.
  - rewrite nth_error_map. destruct (nth_error (combine parts ps) k) as [[pt p]|] eqn:E; [|discriminate]. cbn [option_map fst snd]. intros [= <-].
    assert (K : nth_error parts k = Some pt /\ nth_error ps k = Some p).
    { clear -E. revert ps k E. induction parts as [|y ys IH]; intros [|z zs] [|k] E; cbn in *; try discriminate; [injection E as -> ->; auto|now apply IH]. }
    destruct K as [K1 K2]. exists pt, (ap_rotz p), (if ap_tilted p then 60%Z else 0%Z). split; [exact K1|]. split; [now rewrite nth_error_map, K2|].
    split; [intros ->; now destruct (ap_tilted p)|]. split; [intros Nn; destruct pt; [congruence|destruct (ap_tilted p); discriminate]|]. split; [now exists (ap_tilted p)|].
    apply turn_vertices.
Qed.

Lemma bedded_length (c : Rpoint) (ps : list (@aplane ArithR)) parts : length parts = Datatypes.S (length ps) -> length (bedded c ps parts) = length parts.
Proof. destruct parts as [|y ys]; [discriminate|]. intros L. injection L as L. cbn [bedded length]. rewrite map_length, combine_length. lia. Qed.

Section Heights.
Variables (X0 : @outside ArithR) (f : @flags ArithR) (ps : list (@aplane ArithR)) (parts : list Rmesh).
Let s := settingsOf (ex_now X0) f.
Let c := fl_rotc f.
Let m := m_shift (ex_mesh X0) (fl_origin f).
Hypothesis G : good_outside X0.
Hypothesis HU : legal (ex_U X0).
Hypothesis Tv : fl_slicingType f = "vip"%string.
Hypothesis Rp : readPlanes (ex_parse X0) (ex_planes X0) = Ok ps.
Hypothesis Np : ps <> [].
Hypothesis Ln : INR (length ps) <= 10 ^ 300.
Hypothesis Fb : Forall (fun v => Rabs (X v) <= 10 ^ 300 /\ Rabs (Y v) <= 10 ^ 300 /\ Rabs (Z3 v) <= 10 ^ 300) (c :: vertices m).
Hypothesis P : parted (ex_U X0) m ps parts.

Lemma bed_range k part a b v : nth_error parts k = Some part -> nth_error (angles ps) k = Some (a, b) -> In v (vertices part) ->
  (exists tf, b = (if tf : bool then 60%Z else 0%Z)) -> in_range (bed_height c a b v).
Proof.
  intros K1 _ Hv (tf & ->). rewrite bed_height_dot.
  inversion Fb as [|? ? (C1 & C2 & C3) Fv]; subst x l.
  pose proof (read_normals _ _ _ Rp) as Fn.
  assert (Fu : Forall (fun p => unit3 (pl_n (ap_plane p))) ps) by (eapply Forall_impl; [|exact Fn]; cbn beta; intros p ->; apply read_unit).
  exact (part_range (ex_U X0) m ps parts c _ HU Fu P (read_unit tf a) Ln C1 C2 C3 Fv part v (nth_error_In _ _ K1) Hv).
Qed.

Theorem C115_exact : fl_supportsOn f = false -> 0 < fl_layerHeight f ->
  (forall k part a b, nth_error parts k = Some part -> nth_error (angles ps) k = Some (a, b) ->
     part = [] \/ exists v w, In v (vertices part) /\ In w (vertices part) /\ fl_layerHeight f < bed_height c a b v - bed_height c a b w) ->
  exists out, goosli X0 f = Ok out.
Proof.
  intros Hs HL H. apply (C115_planes X0 f ps parts G HU Tv Rp Np P). change (s_rotationCenter (settingsOf (ex_now X0) f)) with c. apply Forall_forall. intros x Hx. apply In_nth_error in Hx. destruct Hx as (k & Hk).
  destruct (bedded_nth c ps parts k x Hk) as (part & a & b & K1 & K2 & E1 & E2 & Eb & turn & Ev & Et).
  destruct (H k part a b K1 K2) as [N|(v & w & Hv & Hw & D)]; [rewrite (E1 N); now exists []|].
  assert (Np' : part <> []) by (intros ->; destruct Hv).
  assert (Nx : x <> []) by auto.
  assert (Nv : vertices x <> []) by (rewrite Ev; destruct (vertices part); [destruct Hv|discriminate]).
  destruct (bounds_exist axisZ (vertices x) Nv) as (mn & mx & Lo & Hi).
  assert (Hr : Forall (fun p => in_range (Rdot p axisZ)) (vertices x)).
  { rewrite Ev. apply Forall_forall. intros p Hp. apply in_map_iff in Hp. destruct Hp as (q & <- & Hq). rewrite Rdot_axisZ, Et. exact (bed_range k part a b q K1 K2 Hq Eb). }
  pose proof (proj2 Lo (turn w)) as L1. pose proof (proj2 Hi (turn v)) as L2. rewrite Ev in L1, L2. rewrite Rdot_axisZ, Et in L1, L2.
  specialize (L1 (in_map turn _ _ Hw)). specialize (L2 (in_map turn _ _ Hv)).
  destruct (C24_panics_iff (ex_U X0) x axisZ axisZ s mn mx HU Nx unit_axisZ Hr Lo Hi HL ltac:(lra)) as (sup & _ & I & D').
  destruct (sliceByVector (ex_U X0) x axisZ s) as [ls| |] eqn:Es; [exists ls; exact Es| |contradiction].
  destruct (proj1 I eq_refl) as [I1 _]. change (mx - mn <= fl_layerHeight f) in I1. lra.
Qed.

(** a part that lies flat on the bed makes the command fail *)
Theorem C115_flat : forall k part a b h, nth_error parts k = Some part -> nth_error (angles ps) k = Some (a, b) -> part <> [] ->
  (forall v, In v (vertices part) -> bed_height c a b v = h) -> ~ exists out, goosli X0 f = Ok out.
Proof.
  intros k part a b h K1 K2 Np' Fl Ho. apply (C115_planes X0 f ps parts G HU Tv Rp Np P) in Ho. change (s_rotationCenter (settingsOf (ex_now X0) f)) with c in Ho.
  assert (Lx : exists x, nth_error (bedded c ps parts) k = Some x).
  { destruct (nth_error (bedded c ps parts) k) eqn:E; [eauto|]. exfalso. apply nth_error_None in E. assert (k < length parts)%nat by (apply nth_error_Some; congruence).
    rewrite (bedded_length c ps parts (parted_length _ _ _ _ P)) in E. exact (Nat.lt_irrefl _ (Nat.lt_le_trans _ _ _ H E)). }
  destruct Lx as (x & Hk). rewrite Forall_forall in Ho. destruct (Ho x (nth_error_In _ _ Hk)) as (ls & E).
  destruct (bedded_nth c ps parts k x Hk) as (part' & a' & b' & K1' & K2' & E1 & E2 & Eb & turn & Ev & Et).
  pose proof (eq_trans (eq_sym K1) K1') as Q1. injection Q1 as <-. pose proof (eq_trans (eq_sym K2) K2') as Q2. injection Q2 as <- <-.
  assert (F : forall p, In p (vertices x) -> Rdot p axisZ = h).
  { rewrite Ev. intros p Hp. apply in_map_iff in Hp. destruct Hp as (q & <- & Hq). rewrite Rdot_axisZ, Et. auto. }
  assert (Rg : in_range h).
  { destruct part as [|t r]; [congruence|]. rewrite <- (Fl (t1 t)) by (cbn; auto). apply (bed_range k (t :: r)); auto. cbn; auto. }
  pose proof (eq_trans (eq_sym E) (C24_flat_panics (ex_U X0) x axisZ axisZ s h HU (E2 Np') unit_axisZ Rg F)) as Q. discriminate Q.
Qed.
End Heights.

(** ** Cases *)
(** a model in two pieces, a tilted plane between them *)
Lemma cut_apart U (m1 m2 : Rmesh) p : legal U -> m1 ++ m2 <> [] -> (forall v, In v (vertices m1) -> sd p v < 0) -> (forall v, In v (vertices m2) -> 0 < sd p v) ->
  cutMesh (u_ends U) (m1 ++ m2) p = Ok (m2, m1).
Proof.
  intros HU N B1 B2.
  assert (E : map (cut_one p) (m1 ++ m2) = map (fun t => ([], [t], [])) m1 ++ map (fun t => ([t], [], [])) m2).
  { rewrite map_app. f_equal; apply map_ext_in; intros t Ht; unfold cut_one; cbn [filter].
    - assert (F : forall v, In v [t1 t; t2 t; t3 t] -> pointInFront p v = false).
      { intros v Hv. destruct (pointInFront p v) eqn:Q; [|reflexivity]. apply front_R in Q. assert (sd p v < 0); [|lra]. apply B1. unfold vertices. apply in_flat_map. exists t. auto. }
      rewrite !F by (cbn; auto). reflexivity.
    - assert (F : forall v, In v [t1 t; t2 t; t3 t] -> pointInFront p v = true).
      { intros v Hv. apply front_R. apply Rlt_le. apply B2. unfold vertices. apply in_flat_map. exists t. auto. }
      rewrite !F by (cbn; auto). reflexivity. }
  unfold cutMesh. destruct (m1 ++ m2) as [|t0 r] eqn:Em; [congruence|]. rewrite E. cbv zeta. rewrite !flat_map_app.
  assert (Z1 : forall T W (g : W -> list T) (l : Rmesh) h, (forall t, g (h t) = []) -> flat_map g (map h l) = []) by (intros T W g l h Q; induction l; cbn; [reflexivity|now rewrite Q]).
  assert (Z2 : forall W (g : W -> Rmesh) (l : Rmesh) h, (forall t, g (h t) = [t]) -> flat_map g (map h l) = l) by (intros W g l h Q; induction l; cbn; [reflexivity|now rewrite Q, IHl]).
  rewrite !Z1 by reflexivity. rewrite !Z2 by reflexivity. rewrite ?Z1 by reflexivity. cbn [app].
  assert (J : joinPaths3AndMinimize (u_ends U) [] = Ok []).
  { unfold joinPaths3AndMinimize, joinPaths3. cbn [endpoints_from rbind]. pose proof (lg_ends U HU []) as Q. apply Permutation_nil in Q. rewrite Q. reflexivity. }
  rewrite J. cbn [rbind flat_map map]. now rewrite !app_nil_r.
Qed.

Definition up5 : Rvector := V3 (A := ArithR) 0 0 5.
Definition ex_line : list Z := bytes "X0 Y0 Z3 Ttrue R0".
Definition ex_num (w : list Z) : R := if list_eq_dec Z.eq_dec w (bytes "3") then 3 else 0.
Definition exS_flags : @flags ArithR :=
  Flags (V3 (A := ArithR) 0 0 0) (P3 (A := ArithR) 0 0 0) 1 (3 / 10) (8 / 10) 20 3 3 60 200 50 25 40 true (4 / 10) "Lines" false 30 1
    "planes" "vip" 30 (V3 (A := ArithR) 0 0 1) false 1 (175 / 100) 1 3.
Definition exS_outside : @outside ArithR :=
  Outside (A := ArithR) (tetraR ++ m_shift tetraR up5) (Some (ex_line ++ [10%Z])) (Some header_template) (Some footer_template) "02 Jan 06 15:04 MST" (@rev _) (fun m => m) env0
    ex_num (fun _ ts => ts) (fun _ _ => Panic) 10.
Definition exS_planes : list (@aplane ArithR) := [AP (Pl (P3 (A := ArithR) 0 0 3) (read_normal (A := ArithR) true 0)) true 0].

Example exS_good : good_outside exS_outside.
Proof.
  split; [intros m; apply Permutation_rev|]. split; [intros m; apply Permutation_refl|]. split; [split; reflexivity|]. split; reflexivity.
Qed.
Example exS_read : readPlanes (ex_parse exS_outside) (ex_planes exS_outside) = Ok exS_planes.
Proof.
  cbn [exS_outside ex_parse ex_planes]. unfold readPlanes.
  assert (E1 : Stl.split_lines [] (ex_line ++ [10%Z]) = [ex_line]) by (vm_compute; reflexivity). rewrite E1. cbn [read_lines].
  assert (E2 : (Stl.max_token <=? length ex_line)%nat = false) by (vm_compute; reflexivity). rewrite E2.
  assert (E3 : Stl.fields (Stl.drop_cr ex_line) = [bytes "X0"; bytes "Y0"; bytes "Z3"; bytes "Ttrue"; bytes "R0"]) by (vm_compute; reflexivity).
  unfold parsePlane. rewrite E3. unfold word_tail. cbn [idx nth_error rbind]. 
  assert (E4 : parseBool (tl (bytes "Ttrue")) = true) by (vm_compute; reflexivity). rewrite E4.
  assert (N0 : ex_num (tl (bytes "X0")) = 0 /\ ex_num (tl (bytes "Y0")) = 0 /\ ex_num (tl (bytes "Z3")) = 3 /\ ex_num (tl (bytes "R0")) = 0).
  { unfold ex_num. repeat split; destruct (list_eq_dec Z.eq_dec _ _) as [Q|Q]; try reflexivity; exfalso; first [discriminate Q|now apply Q]. }
  destruct N0 as (-> & -> & -> & ->). reflexivity.
Qed.

(** the parts are the two tetrahedra *)
Definition exS_model : Rmesh := m_shift (ex_mesh exS_outside) (fl_origin exS_flags).
Definition exS_parts : list Rmesh := [m_shift tetraR (fl_origin exS_flags); m_shift (m_shift tetraR up5) (fl_origin exS_flags)].
Lemma exS_down v : In v (vertices (m_shift tetraR (fl_origin exS_flags))) -> (X v = 0 \/ X v = 1) /\ (Y v = 0 \/ Y v = 1) /\ (Z3 v = 0 \/ Z3 v = 1).
Proof.
  rewrite vertices_shift. intros I. apply in_map_iff in I. destruct I as (q & <- & Hq).
  cbn in Hq. decompose [or] Hq; subst; try contradiction; unfold moved, Properties_Slicer.rp, X, Y, Z3; cbn [px py pz vx vy vz exS_flags fl_origin]; rcbn; repeat apply conj; first [left; lra|right; lra].
Qed.
Lemma exS_up v : In v (vertices (m_shift (m_shift tetraR up5) (fl_origin exS_flags))) -> (X v = 0 \/ X v = 1) /\ (Y v = 0 \/ Y v = 1) /\ (Z3 v = 5 \/ Z3 v = 6).
Proof.
  rewrite vertices_shift, vertices_shift, map_map. intros I. apply in_map_iff in I. destruct I as (q & <- & Hq).
  cbn in Hq. decompose [or] Hq; subst; try contradiction; unfold moved, up5, Properties_Slicer.rp, X, Y, Z3; cbn [px py pz vx vy vz exS_flags fl_origin]; rcbn; repeat apply conj; first [left; lra|right; lra].
Qed.
Lemma exS_sd v : sd (ap_plane (hd (AP (planeXY (A := ArithR)) false 0) exS_planes)) v = Y v * (sqrt 3 / 2) + (Z3 v - 3) / 2.
Proof.
  cbn [hd exS_planes ap_plane]. unfold sd. cbn [pl_p pl_n]. rewrite read_tilted, rad. replace (PI * 0 / 180) with 0 by field. rewrite sin_0, cos_0.
  unfold rv, X, Y, Z3. cbn [vx vy vz px py pz]. field.
Qed.
Lemma sqrt3_bound : 0 < sqrt 3 < 2.
Proof. split; [apply sqrt_lt_R0; lra|]. rewrite <- (sqrt_Rsqr 2) by lra. apply sqrt_lt_1; unfold Rsqr; lra. Qed.
Example exS_parted : parted (ex_U exS_outside) exS_model exS_planes exS_parts.
Proof.
  apply (parted_snoc (ex_U exS_outside) exS_model [] _ (m_shift (m_shift tetraR up5) (fl_origin exS_flags)) (m_shift tetraR (fl_origin exS_flags)) [m_shift tetraR (fl_origin exS_flags)]); [|constructor].
  assert (E : exS_model = m_shift tetraR (fl_origin exS_flags) ++ m_shift (m_shift tetraR up5) (fl_origin exS_flags)) by (unfold exS_model; cbn [exS_outside ex_mesh]; unfold m_shift; now rewrite map_app).
  rewrite E. pose proof sqrt3_bound as S3. apply cut_apart; [exact env0_legal|discriminate| |].
  - intros v Hv. destruct (exS_down v Hv) as (_ & Ey & Ez). pose proof (exS_sd v) as Q. cbn [hd exS_planes ap_plane] in Q |- *. refine (eq_ind_r (fun x => x < 0) _ Q). destruct Ey as [-> | ->], Ez as [-> | ->]; lra.
  - intros v Hv. destruct (exS_up v Hv) as (_ & Ey & Ez). pose proof (exS_sd v) as Q. cbn [hd exS_planes ap_plane] in Q |- *. refine (eq_ind_r (fun x => 0 < x) _ Q). destruct Ey as [-> | ->], Ez as [-> | ->]; lra.
Qed.
Example exS_bounds : INR (length exS_planes) <= 10 ^ 300 /\
  Forall (fun v => Rabs (X v) <= 10 ^ 300 /\ Rabs (Y v) <= 10 ^ 300 /\ Rabs (Z3 v) <= 10 ^ 300) (fl_rotc exS_flags :: vertices exS_model).
Proof.
  assert (K : 10 <= 10 ^ 300) by (replace 10 with (10 ^ 1) at 1 by ring; apply Rle_pow; [lra|lia]). set (M := 10 ^ 300) in *. clearbody M.
  split; [cbn; lra|]. constructor.
  - cbn [settingsOf s_rotationCenter exS_flags fl_rotc]. unfold X, Y, Z3. cbn [px py pz]. rewrite Rabs_R0. lra.
  - apply Forall_forall. intros v Hv. 
    assert (E : exS_model = m_shift tetraR (fl_origin exS_flags) ++ m_shift (m_shift tetraR up5) (fl_origin exS_flags)) by (unfold exS_model; cbn [exS_outside ex_mesh]; unfold m_shift; now rewrite map_app).
    rewrite E in Hv. unfold vertices in Hv. rewrite flat_map_app, in_app_iff in Hv.
    assert (B : 0 <= X v <= 1 /\ 0 <= Y v <= 1 /\ 0 <= Z3 v <= 6).
    { destruct Hv as [Hv|Hv]; [destruct (exS_down v Hv) as (Q1 & Q2 & Q3)|destruct (exS_up v Hv) as (Q1 & Q2 & Q3)]; repeat apply conj; lra. }
    rewrite !Rabs_pos_eq by lra. lra.
Qed.
(** C114, C115: the file exists, and both parts are printed *)
Example exS_goosli : exists out, goosli exS_outside exS_flags = Ok out.
Proof.
  destruct exS_bounds as [B1 B2].
  apply (C115_exact exS_outside exS_flags exS_planes exS_parts exS_good env0_legal eq_refl exS_read ltac:(discriminate) B1 B2 exS_parted eq_refl).
  - change (0 < 3 / 10). lra.
  - intros [|[|k]] part a b K1 K2; [| |destruct k; discriminate].
    + assert (Ep : part = m_shift tetraR (fl_origin exS_flags)) by (injection K1; auto). rewrite Ep. injection K2 as <- <-. right. exists (moved (fl_origin exS_flags) (Properties_Slicer.rp 0 0 1)), (moved (fl_origin exS_flags) (Properties_Slicer.rp 0 0 0)).
      rewrite vertices_shift. split; [apply in_map; cbn; tauto|]. split; [apply in_map; cbn; tauto|].
      rewrite !bed_height_first. unfold moved, Properties_Slicer.rp, Z3. cbn [pz exS_flags fl_origin vz fl_layerHeight]. rcbn. lra.
    + assert (Ep : part = m_shift (m_shift tetraR up5) (fl_origin exS_flags)) by (injection K1; auto). rewrite Ep. injection K2 as <- <-. right. exists (moved (fl_origin exS_flags) (moved up5 (Properties_Slicer.rp 0 0 1))), (moved (fl_origin exS_flags) (moved up5 (Properties_Slicer.rp 0 0 0))).
      rewrite !vertices_shift. split; [apply in_map, in_map; cbn; tauto|]. split; [apply in_map, in_map; cbn; tauto|].
      unfold bed_height. replace (PI * 0 / 180) with 0 by field. rewrite sin_0, cos_0. rewrite <- (rad 60), cos60, sin60.
      unfold moved, up5, Properties_Slicer.rp, X, Y, Z3. cbn [px py pz exS_flags fl_origin vx vy vz fl_layerHeight settingsOf s_rotationCenter fl_rotc]. rcbn. lra.
Qed.
Example exS_angles : angles exS_planes = [(0, 0%Z); (0, 60%Z)]. Proof. reflexivity. Qed.

(** C115_flat: one horizontal triangle under the plane *)
Definition exF_mesh : Rmesh := [newTriangle (Properties_Slicer.rp 0 0 0) (Properties_Slicer.rp 1 0 0) (Properties_Slicer.rp 0 1 0)].
Definition exF_outside : @outside ArithR :=
  Outside (A := ArithR) exF_mesh (Some (ex_line ++ [10%Z])) (Some header_template) (Some footer_template) "02 Jan 06 15:04 MST" (@rev _) (fun m => m) env0
    ex_num (fun _ ts => ts) (fun _ _ => Panic) 10.
Example exF_fails : good_outside exF_outside /\ readPlanes (ex_parse exF_outside) (ex_planes exF_outside) = Ok exS_planes /\ 
  parted (ex_U exF_outside) (m_shift (ex_mesh exF_outside) (fl_origin exS_flags)) exS_planes [m_shift exF_mesh (fl_origin exS_flags); []] /\
  ~ exists out, goosli exF_outside exS_flags = Ok out.
Proof.
  assert (G : good_outside exF_outside).
  { split; [intros m; apply Permutation_rev|]. split; [intros m; apply Permutation_refl|]. split; [split; reflexivity|]. split; reflexivity. }
  assert (V : forall v, In v (vertices (m_shift exF_mesh (fl_origin exS_flags))) -> (X v = 0 \/ X v = 1) /\ (Y v = 0 \/ Y v = 1) /\ Z3 v = 0).
  { intros v. rewrite vertices_shift. intros I. apply in_map_iff in I. destruct I as (q & <- & Hq).
    cbn in Hq. decompose [or] Hq; subst; try contradiction; unfold moved, Properties_Slicer.rp, X, Y, Z3; cbn [px py pz vx vy vz exS_flags fl_origin]; rcbn;
      repeat apply conj; first [lra|left; lra|right; lra]. }
  assert (P : parted (ex_U exF_outside) (m_shift (ex_mesh exF_outside) (fl_origin exS_flags)) exS_planes [m_shift exF_mesh (fl_origin exS_flags); []]).
  { apply (parted_snoc (ex_U exF_outside) _ [] _ [] (m_shift exF_mesh (fl_origin exS_flags)) [m_shift exF_mesh (fl_origin exS_flags)]); [|constructor].
    change (m_shift (ex_mesh exF_outside) (fl_origin exS_flags)) with (m_shift exF_mesh (fl_origin exS_flags) ++ []).
    pose proof sqrt3_bound as S3. apply cut_apart; [exact env0_legal|discriminate| |intros v []].
    intros v Hv. destruct (V v Hv) as (_ & Ey & Ez). pose proof (exS_sd v) as Q. cbn [hd exS_planes ap_plane] in Q |- *.
    refine (eq_ind_r (fun x => x < 0) _ Q). rewrite Ez. destruct Ey as [-> | ->]; lra. }
  split; [exact G|]. split; [exact exS_read|]. split; [exact P|].
  assert (K : 10 <= 10 ^ 300) by (replace 10 with (10 ^ 1) at 1 by ring; apply Rle_pow; [lra|lia]).
  apply (C115_flat exF_outside exS_flags exS_planes [m_shift exF_mesh (fl_origin exS_flags); []] G env0_legal eq_refl exS_read ltac:(discriminate))
    with (k := 0%nat) (part := m_shift exF_mesh (fl_origin exS_flags)) (a := 0) (b := 0%Z) (h := 0); try reflexivity.
  - set (M := 10 ^ 300) in *. clearbody M. cbn. lra.
  - set (M := 10 ^ 300) in *. clearbody M. constructor.
    + cbn [exS_flags fl_rotc]. unfold X, Y, Z3. cbn [px py pz]. rewrite Rabs_R0. lra.
    + apply Forall_forall. intros v Hv. destruct (V v Hv) as (Q1 & Q2 & Q3). assert (0 <= X v <= 1 /\ 0 <= Y v <= 1) by lra. rewrite Q3, !Rabs_pos_eq by lra. lra.
  - exact P.
  - discriminate.
  - intros v Hv. rewrite bed_height_first. now destruct (V v Hv).
Qed.

Print Assumptions C114_parts.
Print Assumptions C114_above.
Print Assumptions C115_planes.
Print Assumptions C115_exact.
Print Assumptions C115_flat.
