From Coq Require Import String ZArith Reals Lra Lia List Bool Permutation Sorted PeanoNat.
From Flocq Require Import Core.Raux.
From Verif Require Import Arith ArithR ArithF64 Prim Path PathClaims GeomSpec GeomProofs MeshProofs JoinProofs Helpers HelperClaims HelperProofs HelperProofs2
  Slicer SlicerClaims SlicerProofs SlicerProofs2 Properties_Path Properties_Slicer ClosedClaims JoinClosed JoinClosed2 Watertight Properties_Closed CutClaims CutProofs Properties_Cut.
Import ListNotations.
Close Scope Z_scope.
Close Scope num_scope.
Close Scope string_scope.
Close Scope R_scope.

(** a tetrahedron with a cavity of the same shape, cut through the cavity *)
Section Cavity.
Local Open Scope R_scope.
Definition ztri := (zt * zt * zt)%type.
Definition ztr (t : ztri) : Rtriangle := let '(a, b, c) := t in newTriangle (zq a) (zq b) (zq c).
Definition zsides (m : list ztri) : list (zt * zt) := flat_map (fun t => let '(a, b, c) := t in [(a, b); (b, c); (c, a)]) m.
Lemma zsides_ok m : sides (map ztr m) = map zs (zsides m).
Proof. induction m as [|[[a b] c] m IH]; [reflexivity|]. unfold sides, zsides in *. cbn [map flat_map]. rewrite map_app, <- IH. reflexivity. Qed.
Definition zwt (m : list ztri) : bool :=
  forallb (fun e => existsb (zseqb (snd e, fst e)) (zsides m)) (zsides m) && znodup (zsides m) &&
  forallb (fun t => let '(a, b, c) := t in negb (zeqb a b) && negb (zeqb b c) && negb (zeqb c a)) m.
Lemma znot a b : negb (zeqb a b) = true -> zq a <> zq b.
Proof. intros H E. apply zq_inj in E. apply negb_true_iff in H. subst. rewrite (proj2 (zeqb_eq b b) eq_refl) in H. discriminate. Qed.
Lemma zwt_ok m : zwt m = true -> watertight (map ztr m).
Proof.
  unfold zwt. intros H. apply andb_true_iff in H. destruct H as (H & H3). apply andb_true_iff in H. destruct H as (H1 & H2).
  apply znodup_ok in H2. rewrite forallb_forall in H1, H3. split; [|split].
  - rewrite zsides_ok, map_map. assert (E : map (fun x => back (zs x)) (zsides m) = map zs (map (fun e => (snd e, fst e)) (zsides m))) by (rewrite map_map; reflexivity).
    rewrite E. apply Permutation_map. apply NoDup_Permutation; [exact H2| |].
    + apply FinFun.Injective_map_NoDup; [|exact H2]. intros [a b] [c d] Q. cbn in Q. congruence.
    + intros e. split; intros K.
      * apply in_map_iff. exists (snd e, fst e). split; [now destruct e|]. apply zin. now apply H1.
      * apply in_map_iff in K. destruct K as (f & <- & K). apply zin. now apply H1.
  - rewrite zsides_ok. apply FinFun.Injective_map_NoDup; [exact zs_inj|exact H2].
  - apply Forall_forall. intros t Ht. apply in_map_iff in Ht. destruct Ht as ([[a b] c] & <- & Ht). specialize (H3 _ Ht).
    apply andb_true_iff in H3. destruct H3 as (H3 & C3). apply andb_true_iff in H3. destruct H3 as (C1 & C2).
    cbn [ztr newTriangle t1 t2 t3]. split; [now apply znot|]. split; [now apply znot|]. split; [now apply znot|reflexivity].
Qed.

(** where the plane at height c meets a side, when that is an integer point *)
Definition level (c : Z) : Rplane := plane_at (V3 (A := ArithR) 0 0 1) (IZR c).
Lemma level_sd c q : sd (level c) (zq q) = IZR (snd q - c).
Proof. unfold level. rewrite sd_flat. destruct q as [[x y] z]. unfold Z3, zq, za, rp. cbn [pz snd]. now rewrite minus_IZR. Qed.
Definition zat (c : Z) (e : zt * zt) : zt :=
  let '(x, y, z) := fst e in let '(x', y', z') := snd e in
  (x + (x' - x) * (c - z) / (z' - z), y + (y' - y) * (c - z) / (z' - z), c)%Z.
Definition zexact (c : Z) (e : zt * zt) : bool :=
  let '(x, y, z) := fst e in let '(x', y', z') := snd e in
  ((z =? z') || (((x' - x) * (c - z) mod (z' - z) =? 0) && ((y' - y) * (c - z) mod (z' - z) =? 0)))%Z.
Definition zcross (c : Z) (e : zt * zt) : bool := ((snd (fst e) <? c) && (c <? snd (snd e)) || (c <? snd (fst e)) && (snd (snd e) <? c))%Z.
Lemma zmeets c e q : snd (fst e) <> c -> snd (snd e) <> c -> zexact c e = true -> meets (level c) (zs e) q -> zcross c e = true /\ q = zq (zat c e).
Proof.
  destruct e as [[[x y] z] [[x' y'] z']]. intros N1 N2 Hd [(t & Ht & ->) S]. cbn [fst snd zs] in *. unfold level in S. rewrite sd_flat in S.
  unfold along in S |- *. unfold X, Y, Z3, zq, za, rp in *. cbn [px py pz] in *.
  assert (E : (IZR z + t * (IZR z' - IZR z))%R = IZR c) by (revert S; rcbn; intros; lra). clear S.
  assert (Nz : z <> z') by (intros ->; apply N2; apply eq_IZR; lra).
  split.
  - unfold zcross. cbn [fst snd]. apply orb_true_iff. rewrite !andb_true_iff, !Z.ltb_lt.
    assert (K : forall a b, (IZR a <= IZR b)%R -> (a <= b)%Z) by (intros; now apply le_IZR).
    destruct (Z_lt_le_dec z z') as [L|L].
    + left. apply IZR_lt in L. assert (z <= c)%Z by (apply K; nra). assert (c <= z')%Z by (apply K; nra). lia.
    + right. assert (L' : (z' < z)%Z) by lia. apply IZR_lt in L'. assert (c <= z)%Z by (apply K; nra). assert (z' <= c)%Z by (apply K; nra). lia.
  - unfold zexact in Hd. cbn [fst snd] in Hd. rewrite (proj2 (Z.eqb_neq z z') Nz) in Hd. cbn [orb] in Hd. apply andb_true_iff in Hd. destruct Hd as (D1 & D2). apply Z.eqb_eq in D1, D2.
    assert (Nd : (z' - z <> 0)%Z) by lia.
    assert (Rd : IZR z' - IZR z <> 0) by (rewrite <- minus_IZR; apply IZR_neq; lia).
    assert (T : t = (IZR c - IZR z) / (IZR z' - IZR z)) by (rewrite <- E; field; exact Rd).
    assert (Q : forall u, (u * (c - z) mod (z' - z) = 0)%Z -> IZR u * t = IZR (u * (c - z) / (z' - z))).
    { intros u Hu. apply Z.mod_divide in Hu; [|exact Nd]. destruct Hu as (k & Hk). rewrite Hk, Z.div_mul by exact Nd.
      apply (f_equal IZR) in Hk. rewrite !mult_IZR, !minus_IZR in Hk. rewrite T. replace (IZR u * ((IZR c - IZR z) / (IZR z' - IZR z))) with ((IZR u * (IZR c - IZR z)) / (IZR z' - IZR z)) by (field; exact Rd). rewrite Hk. field. exact Rd. }
    unfold zat. cbn [fst snd]. pose proof (Q _ D1) as Q1. pose proof (Q _ D2) as Q2. rewrite minus_IZR in Q1, Q2.
    apply pt_ext; unfold X, Y, Z3; cbn [px py pz]; [rewrite plus_IZR, <- Q1|rewrite plus_IZR, <- Q2|]; [| |rewrite <- E]; rcbn; ring.
Qed.
Definition zgp (c : Z) (m : list ztri) : bool :=
  forallb (fun t => let '(a, b, d) := t in negb (snd a =? c)%Z && negb (snd b =? c)%Z && negb (snd d =? c)%Z) m &&
  forallb (zexact c) (zsides m) &&
  forallb (fun e => forallb (fun f => negb (zcross c e && zcross c f && zeqb (zat c e) (zat c f)) || zseqb f e || zseqb f (snd e, fst e)) (zsides m)) (zsides m).
Lemma zclear a b : clear_of (IZR a) (IZR b).
Proof.
  destruct (Z.eq_dec a b) as [-> |N]; [left; reflexivity|]. right. rewrite <- minus_IZR, <- abs_IZR. assert (1 <= Z.abs (a - b))%Z by lia. apply IZR_le in H. lra.
Qed.
Lemma zgp_ok c m : zgp c m = true -> general_position (level c) (map ztr m).
Proof.
  unfold zgp. intros H. apply andb_true_iff in H. destruct H as (H & H3). apply andb_true_iff in H. destruct H as (H1 & H2). rewrite forallb_forall in H1, H2, H3.
  assert (V : forall e, In e (zsides m) -> snd (fst e) <> c /\ snd (snd e) <> c).
  { intros e He. unfold zsides in He. apply in_flat_map in He. destruct He as ([[a b] d] & Ht & He). specialize (H1 _ Ht).
    rewrite !andb_true_iff, !negb_true_iff, !Z.eqb_neq in H1. destruct He as [<-|[<-|[<-|[]]]]; cbn [fst snd]; tauto. }
  split.
  - intros v Hv. unfold vertices in Hv. apply in_flat_map in Hv. destruct Hv as (t & Ht & Hv). apply in_map_iff in Ht. destruct Ht as ([[a b] d] & <- & Ht). specialize (H1 _ Ht).
    rewrite !andb_true_iff, !negb_true_iff, !Z.eqb_neq in H1. cbn [ztr newTriangle t1 t2 t3] in Hv.
    destruct Hv as [<-|[<-|[<-|[]]]]; rewrite level_sd; apply IZR_neq; lia.
  - intros e f q r He Hf Me Mf. rewrite zsides_ok in He, Hf. apply in_map_iff in He, Hf. destruct He as (e' & <- & He). destruct Hf as (f' & <- & Hf).
    destruct (zmeets c e' q) as (Ce & ->); [apply V, He|apply V, He|now apply H2|exact Me|]. destruct (zmeets c f' r) as (Cf & ->); [apply V, Hf|apply V, Hf|now apply H2|exact Mf|].
    specialize (H3 _ He). rewrite forallb_forall in H3. specialize (H3 _ Hf). rewrite Ce, Cf in H3. cbn [andb] in H3.
    destruct (zat c e') as [[x y] z] eqn:E1, (zat c f') as [[x' y'] z'] eqn:E2. unfold X, Y, Z3, zq, za, rp. cbn [px py pz].
    split; [apply zclear|]. split; [apply zclear|]. split; [apply zclear|]. intros E. injection E as A1 A2 A3. apply eq_IZR in A1, A2, A3. subst.
    rewrite (proj2 (zeqb_eq _ _) eq_refl) in H3. cbn [negb orb] in H3. apply orb_true_iff in H3. rewrite !zseqb_eq in H3. destruct H3 as [-> | ->]; [left; reflexivity|right; reflexivity].
Qed.

(** triangles that can be divided *)
Definition zvarea (a b q : zt) : zt :=
  let '(xa, ya, za) := a in let '(xb, yb, zb) := b in let '(xq, yq, zq) := q in
  ((yb - ya) * (zq - za) - (zb - za) * (yq - ya), (zb - za) * (xq - xa) - (xb - xa) * (zq - za), (xb - xa) * (yq - ya) - (yb - ya) * (xq - xa))%Z.
Definition zdist2 (a b : zt) : Z := let '(xa, ya, za) := a in let '(xb, yb, zb) := b in ((xa - xb) * (xa - xb) + (ya - yb) * (ya - yb) + (za - zb) * (za - zb))%Z.
Definition zdiv_corner (c : Z) (a b d : zt) : bool :=
  negb (zcross c (a, b) && zcross c (a, d)) ||
  ((zdist2 a b <=? 10000)%Z && zexact c (a, d) && negb (zeqb (zvarea a b (zat c (a, d))) (0, 0, 0)%Z)).
Definition zdiv (c : Z) (m : list ztri) : bool := forallb (fun t => let '(a, b, d) := t in zdiv_corner c a b d && zdiv_corner c b d a && zdiv_corner c d a b) m.
Lemma zdist_ok a b : dist2 (zq a) (zq b) = IZR (zdist2 a b).
Proof. destruct a as [[x y] z], b as [[x' y'] z']. unfold dist2, zdist2, X, Y, Z3, zq, za, rp. cbn [px py pz]. now rewrite !plus_IZR, !mult_IZR, !minus_IZR. Qed.
Lemma zvarea_ok a b q : varea (zq a) (zq b) (zq q) = let '(x, y, z) := zvarea a b q in V3 (A := ArithR) (IZR x) (IZR y) (IZR z).
Proof.
  destruct a as [[x y] z], b as [[x' y'] z'], q as [[x'' y''] z'']. unfold varea, zvarea, X, Y, Z3, zq, za, rp. cbn [px py pz].
  apply V_ext; cbn [vx vy vz]; now rewrite !minus_IZR, !mult_IZR, !minus_IZR.
Qed.
Lemma zcross_ok c a b : sd (level c) (zq a) * sd (level c) (zq b) < 0 -> zcross c (a, b) = true.
Proof.
  rewrite !level_sd. rewrite <- mult_IZR. intros H. apply lt_IZR in H. unfold zcross. cbn [fst snd]. apply orb_true_iff. rewrite !andb_true_iff, !Z.ltb_lt.
  destruct (Z_lt_le_dec (snd a) c) as [L|L]; [left; split; [exact L|nia]|right].
  assert (c < snd a)%Z by (destruct (Z.eq_dec (snd a) c) as [E|]; [rewrite E, Z.sub_diag in H; lia|lia]). split; [assumption|nia].
Qed.
Lemma zcross_off c a b : zcross c (a, b) = true -> snd a <> c /\ snd b <> c /\ ~ closer (1 / 10 ^ 6) (zq a) (zq b).
Proof.
  unfold zcross. cbn [fst snd]. intros H. apply orb_true_iff in H. rewrite !andb_true_iff, !Z.ltb_lt in H. split; [lia|]. split; [lia|].
  intros (_ & _ & K). destruct a as [[x y] z], b as [[x' y'] z']. unfold Z3, zq, za, rp in K. cbn [pz snd] in *. change (Rabs (IZR z - IZR z') < 1 / 10 ^ 6) in K.
  rewrite <- minus_IZR, <- abs_IZR in K. assert (1 <= Z.abs (z - z'))%Z by lia. apply IZR_le in H0. lra.
Qed.
Lemma zdiv_ok c m : zdiv c m = true -> Forall (dividable (level c)) (map ztr m).
Proof.
  unfold zdiv. intros H. rewrite forallb_forall in H. apply Forall_forall. intros t Ht. apply in_map_iff in Ht. destruct Ht as ([[a b] d] & <- & Ht). specialize (H _ Ht).
  assert (K : forall a b d, zdiv_corner c a b d = true -> sd (level c) (zq a) * sd (level c) (zq b) < 0 -> sd (level c) (zq a) * sd (level c) (zq d) < 0 ->
    ~ closer (1 / 10 ^ 6) (zq a) (zq b) /\ ~ closer (1 / 10 ^ 6) (zq a) (zq d) /\ dist2 (zq a) (zq b) <= 100 * 100 /\
    forall q, meets (level c) (zq a, zq d) q -> 2 / 10 ^ 6 <= Vlen (varea (zq a) (zq b) q)).
  { clear. intros a b d H S1 S2. apply zcross_ok in S1, S2. unfold zdiv_corner in H. rewrite S1, S2 in H. cbn [andb negb orb] in H.
    apply andb_true_iff in H. destruct H as (H & H3). apply andb_true_iff in H. destruct H as (H1 & H2).
    destruct (zcross_off _ _ _ S1) as (_ & _ & N1). destruct (zcross_off _ _ _ S2) as (A1 & A2 & N2). split; [exact N1|]. split; [exact N2|]. split.
    - rewrite zdist_ok. apply Z.leb_le, IZR_le in H1. lra.
    - intros q Hq. destruct (zmeets c (a, d) q A1 A2 H2 Hq) as (_ & ->). rewrite zvarea_ok. destruct (zvarea a b (zat c (a, d))) as [[x y] z].
      assert (1 <= Vlen (V3 (A := ArithR) (IZR x) (IZR y) (IZR z))); [|lra].
      unfold Vlen, Vdot. cbn [vx vy vz]. rewrite <- sqrt_1 at 1. apply sqrt_le_1_alt.
      change (1 <= IZR x * IZR x + IZR y * IZR y + IZR z * IZR z). rewrite <- !mult_IZR, <- !plus_IZR. apply (IZR_le 1).
      apply negb_true_iff in H3. assert (x <> 0 \/ y <> 0 \/ z <> 0)%Z.
      { destruct (Z.eq_dec x 0) as [-> |]; [|auto]. destruct (Z.eq_dec y 0) as [-> |]; [|auto]. destruct (Z.eq_dec z 0) as [-> |]; [discriminate|auto]. }
      assert (Q : forall x, (x <> 0 -> 1 <= x * x)%Z) by (intros w; nia). pose proof (Z.square_nonneg x). pose proof (Z.square_nonneg y). pose proof (Z.square_nonneg z).
      destruct H as [N|[N|N]]; specialize (Q _ N); lia. }
  apply andb_true_iff in H. destruct H as (H & H3). apply andb_true_iff in H. destruct H as (H1 & H2).
  intros x y z [E|[E|E]] S1 S2; cbn [ztr newTriangle t1 t2 t3] in E; injection E as -> -> ->; now apply K.
Qed.

(** the sections of such a mesh *)
Definition zup (c : Z) (e : zt * zt) : bool := ((snd (fst e) <? c) && (c <? snd (snd e)))%Z.
Definition zdown (c : Z) (e : zt * zt) : bool := ((c <? snd (fst e)) && (snd (snd e) <? c))%Z.
Definition zsections (c : Z) (m : list ztri) : list (zt * zt) :=
  combine (map (zat c) (filter (zup c) (zsides m))) (map (zat c) (filter (zdown c) (zsides m))).
Lemma zround (z : zt) : pt_round8 (zq z) = zq z.
Proof. destruct z as [[x y] z]. apply pt_ext; unfold X, Y, Z3, pt_round8, zq, za, rp; cbn [px py pz]; [apply (round8_int (x * 100000000))|apply (round8_int (y * 100000000))|apply (round8_int (z * 100000000))]; now rewrite mult_IZR. Qed.
Lemma zsections_ok c m : zwt m = true -> zgp c m = true -> flat_map path_sides (sections (level c) (map ztr m)) = map zs (zsections c m).
Proof.
  intros W G. pose proof (zwt_ok m W) as W'. pose proof (zgp_ok c m G) as G'.
  destruct (ends_of_sections (level c) (map ztr m) W' G' (map ztr m) (incl_refl _)) as (E1 & E2 & _).
  assert (L : forall q, In q (sections (level c) (map ztr m)) -> q = [from q; upto q]).
  { intros q Hq. apply in_flat_map in Hq. destruct Hq as (t & _ & Hq). destruct (intersectTriangle (level c) t); [|destruct Hq]. destruct Hq as [<-|[]]. reflexivity. }
  assert (LT : forall a, Rltb (sd (level c) (zq a)) 0 = (snd a <? c)%Z).
  { intros a. rewrite level_sd. destruct (Z.ltb_spec (snd a) c) as [H|H]; [apply Rltb_true; apply (IZR_lt _ 0)|apply Rltb_false; apply (IZR_le 0)]; lia. }
  assert (GT : forall a, Rltb 0 (sd (level c) (zq a)) = (c <? snd a)%Z).
  { intros a. rewrite level_sd. destruct (Z.ltb_spec c (snd a)) as [H|H]; [apply Rltb_true; apply (IZR_lt 0)|apply Rltb_false; apply (IZR_le _ 0)]; lia. }
  assert (U : forall e, going_up (level c) (zs e) = zup c e) by (intros [a b]; unfold going_up, zup, zs; cbn [fst snd]; now rewrite LT, GT).
  assert (D : forall e, going_down (level c) (zs e) = zdown c e) by (intros [a b]; unfold going_down, zdown, zs; cbn [fst snd]; now rewrite LT, GT).
  assert (FM : forall (g : side -> bool) h l, (forall e, g (zs e) = h e) -> filter g (map zs l) = map zs (filter h l)).
  { intros g h l H. induction l as [|e l IH]; [reflexivity|]. cbn [map filter]. rewrite H. destruct (h e); cbn [map]; now rewrite IH. }
  unfold zgp in G. apply andb_true_iff in G. destruct G as (G & _). apply andb_true_iff in G. destruct G as (_ & G). rewrite forallb_forall in G.
  assert (MK : forall h l, (forall e, h e = true -> going_up (level c) (zs e) = true \/ going_down (level c) (zs e) = true) -> incl l (zsides m) -> map (mark (level c)) (map zs (filter h l)) = map zq (map (zat c) (filter h l))).
  { intros h l H I. rewrite !map_map. apply map_ext_in. intros e He. apply filter_In in He. destruct He as (He & Hh). specialize (H e Hh). unfold mark.
    pose proof H as H'. rewrite up_true, down_true in H'. destruct e as [a b]. unfold zs in H'. cbn [fst snd] in H'. rewrite !level_sd in H'.
    destruct (zmeets c (a, b) (at_plane (level c) (zs (a, b)))) as (_ & ->).
    - cbn [fst snd]. intros E. rewrite E, Z.sub_diag in H'. lra.
    - cbn [fst snd]. intros E. rewrite E, Z.sub_diag in H'. lra.
    - apply G. now apply I.
    - now apply cut_meets.
    - apply zround. }
  rewrite zsides_ok, (FM _ _ _ U), MK in E1; [|intros e He; left; now rewrite U|apply incl_refl].
  rewrite zsides_ok, (FM _ _ _ D), MK in E2; [|intros e He; right; now rewrite D|apply incl_refl].
  unfold zsections. revert L E1 E2. generalize (sections (level c) (map ztr m)) (map (zat c) (filter (zup c) (zsides m))) (map (zat c) (filter (zdown c) (zsides m))).
  induction l as [|q l IH]; intros l1 l2 L E1 E2; destruct l1 as [|x l1], l2 as [|y l2]; try discriminate; [reflexivity|].
  cbn [map] in E1, E2. injection E1 as A1 E1. injection E2 as B1 E2. cbn [flat_map combine map]. rewrite (IH l1 l2) by (auto; intros r Hr; apply L; now right).
  rewrite (L q) by (left; reflexivity). rewrite A1, B1. reflexivity.
Qed.

Lemma ring3 (S : list side) (q : Rpath) a b c : (forall x y, In (x, y) S -> (x = a -> y = b) /\ (x = b -> y = c) /\ (x = c -> y = a)) ->
  a <> b -> a <> c -> incl (path_sides q) S -> NoDup (path_sides q) -> (2 <= length q)%nat -> upto q = from q -> from q = a -> q = [a; b; c; a].
Proof.
  intros H Nb Nc I ND L U F.
  destruct q as [|x [|y [|z [|w [|v r]]]]]; try (cbn in L; lia); unfold upto, from in U, F; cbn [last hd] in U, F; unfold path_sides in I, ND; cbn [tl combine] in I, ND; rewrite F in *; clear x F.
  - exfalso. subst y. apply Nb. apply (H a a); [apply I; left; reflexivity|reflexivity].
  - exfalso. subst z. assert (y = b) as -> by (apply (H a y); [apply I; left; reflexivity|reflexivity]). apply Nc. apply (H b a); [apply I; right; left; reflexivity|reflexivity].
  - subst w. assert (y = b) as -> by (apply (H a y); [apply I; left; reflexivity|reflexivity]). assert (z = c) as -> by (apply (H b z); [apply I; right; left; reflexivity|reflexivity]). reflexivity.
  - exfalso. assert (y = b) as -> by (apply (H a y); [apply I; left; reflexivity|reflexivity]). assert (z = c) as -> by (apply (H b z); [apply I; right; left; reflexivity|reflexivity]).
    assert (w = a) as -> by (apply (H c w); [apply I; right; right; left; reflexivity|reflexivity]). assert (v = b) as -> by (apply (H a v); [apply I; right; right; right; left; reflexivity|reflexivity]).
    inversion ND as [|? ? N _]; subst. apply N. right. right. left; reflexivity.
Qed.

Definition cavity : list ztri :=
  let A := (0, 0, 0)%Z in let B := (8, 0, 0)%Z in let C := (0, 8, 0)%Z in let D := (0, 0, 8)%Z in
  let a := (1, 1, 1)%Z in let b := (3, 1, 1)%Z in let c := (1, 3, 1)%Z in let d := (1, 1, 3)%Z in
  [(A, C, B); (A, B, D); (B, C, D); (C, A, D); (a, b, c); (a, d, b); (b, d, c); (c, d, a)].
Definition around : list zt := [(0, 0, 2); (0, 6, 2); (6, 0, 2)]%Z.
Definition inside : list zt := [(1, 1, 2); (2, 1, 2); (1, 2, 2)]%Z.
Example ex_cavity : watertight (map ztr cavity) /\ general_position (level 2) (map ztr cavity) /\ Forall (dividable (level 2)) (map ztr cavity).
Proof. split; [apply zwt_ok; reflexivity|]. split; [apply zgp_ok; reflexivity|apply zdiv_ok; reflexivity]. Qed.

Lemma NoDup_app_l {T} (l r : list T) : NoDup (l ++ r) -> NoDup l.
Proof. induction l as [|x l IH]; intros H; [constructor|]. cbn in H. inversion H as [|? ? N H']; subst. constructor; [|now apply IH]. intros K. apply N, in_or_app; left; exact K. Qed.
Lemma NoDup_app_r {T} (l r : list T) : NoDup (l ++ r) -> NoDup r.
Proof. induction l as [|x l IH]; intros H; [exact H|]. cbn in H. inversion H; subst. now apply IH. Qed.

Definition tri_path (l : list zt) : list Rpath :=
  match l with [x; y; z] => let a := zq x in let b := zq y in let c := zq z in [[a; b; c; a]; [b; c; a; b]; [c; a; b; c]] | _ => [] end.
Lemma cavity_rings (js : list Rpath) : Permutation (flat_map path_sides js) (map zs (zsections 2 cavity)) ->
  Forall (fun q : Rpath => (2 <= length q)%nat /\ upto q = from q) js ->
  Forall (fun q => In q (tri_path around) \/ In q (tri_path inside)) js.
Proof.
  intros P F. apply Forall_forall. intros q Hq. rewrite Forall_forall in F. destruct (F q Hq) as (L & U).
  assert (ND : NoDup (flat_map path_sides js)).
  { apply (Permutation_NoDup (Permutation_sym P)). apply FinFun.Injective_map_NoDup; [exact zs_inj|]. apply znodup_ok. reflexivity. }
  assert (NDq : NoDup (path_sides q)).
  { clear -ND Hq. induction js as [|x js IH]; [destruct Hq|]. cbn [flat_map] in ND. destruct Hq as [-> |Hq]; [now apply NoDup_app_l in ND|]. apply IH; [exact Hq|now apply NoDup_app_r in ND]. }
  assert (I : incl (path_sides q) (map zs (zsections 2 cavity))).
  { intros e He. apply (Permutation_in _ P). apply in_flat_map. eauto. }
  assert (N : forall a b, zeqb a b = false -> zq a <> zq b) by (intros a b H; intros E; apply zq_inj in E; subst; rewrite (proj2 (zeqb_eq b b) eq_refl) in H; discriminate).
  assert (Sc : forall (a b c : zt), forallb (fun e => (negb (zeqb (fst e) a) || zeqb (snd e) b) && (negb (zeqb (fst e) b) || zeqb (snd e) c) && (negb (zeqb (fst e) c) || zeqb (snd e) a)) (zsections 2 cavity) = true ->
    forall x y, In (x, y) (map zs (zsections 2 cavity)) -> (x = zq a -> y = zq b) /\ (x = zq b -> y = zq c) /\ (x = zq c -> y = zq a)).
  { intros a b c H x y K. apply in_map_iff in K. destruct K as ([u v] & E & K). unfold zs in E. cbn [fst snd] in E. injection E as <- <-. rewrite forallb_forall in H. specialize (H _ K). cbn [fst snd] in H.
    rewrite !andb_true_iff, !orb_true_iff, !negb_true_iff in H. destruct H as ((H1 & H2) & H3).
    assert (Q : forall s t, (zeqb u s = false \/ zeqb v t = true) -> zq u = zq s -> zq v = zq t).
    { intros s t [G|G] E.
      - apply zq_inj in E. subst. rewrite (proj2 (zeqb_eq s s) eq_refl) in G. discriminate.
      - apply zeqb_eq in G. now subst. }
    split; [now apply Q|]. split; now apply Q. }
  assert (St : exists e, In e (zsections 2 cavity) /\ from q = zq (fst e)).
  { destruct q as [|x [|y r]]; [cbn in L; lia|cbn in L; lia|]. assert (K : In (x, y) (map zs (zsections 2 cavity))) by (apply I; left; reflexivity).
    apply in_map_iff in K. destruct K as ([u v] & E & K). unfold zs in E. cbn [fst snd] in E. injection E as <- <-. exists (u, v). split; [exact K|reflexivity]. }
  assert (R : forall a b c, forallb (fun e => (negb (zeqb (fst e) a) || zeqb (snd e) b) && (negb (zeqb (fst e) b) || zeqb (snd e) c) && (negb (zeqb (fst e) c) || zeqb (snd e) a)) (zsections 2 cavity) = true ->
    zeqb a b = false -> zeqb a c = false -> from q = zq a -> q = [zq a; zq b; zq c; zq a]).
  { intros a b c H N1 N2 E. apply (ring3 _ q _ _ _ (Sc a b c H)); auto. }
  destruct St as (e & He & E). vm_compute in He.
  destruct He as [<-|[<-|[<-|[<-|[<-|[<-|[]]]]]]]; cbn [fst] in E; unfold tri_path, around, inside; cbn zeta.
  - left. rewrite (R (6, 0, 2)%Z (0, 0, 2)%Z (0, 6, 2)%Z eq_refl eq_refl eq_refl E). right. right. left. reflexivity.
  - left. rewrite (R (0, 6, 2)%Z (6, 0, 2)%Z (0, 0, 2)%Z eq_refl eq_refl eq_refl E). right. left. reflexivity.
  - left. rewrite (R (0, 0, 2)%Z (0, 6, 2)%Z (6, 0, 2)%Z eq_refl eq_refl eq_refl E). left. reflexivity.
  - right. rewrite (R (1, 1, 2)%Z (2, 1, 2)%Z (1, 2, 2)%Z eq_refl eq_refl eq_refl E). left. reflexivity.
  - right. rewrite (R (2, 1, 2)%Z (1, 2, 2)%Z (1, 1, 2)%Z eq_refl eq_refl eq_refl E). right. left. reflexivity.
  - right. rewrite (R (1, 2, 2)%Z (1, 1, 2)%Z (2, 1, 2)%Z eq_refl eq_refl eq_refl E). right. right. left. reflexivity.
Qed.

Lemma up_len k : (1 <= Z.abs k)%Z -> 1 / 10 ^ 6 <= Vlen (V3 (A := ArithR) 0 0 (IZR k)).
Proof.
  intros H. unfold Vlen, Vdot. cbn [vx vy vz]. rcbn. replace (0 * 0 + 0 * 0 + IZR k * IZR k)%R with (Rsqr (IZR k)) by (unfold Rsqr; lra).
  rewrite sqrt_Rsqr_abs, <- abs_IZR. apply IZR_le in H. lra.
Qed.
Lemma turn_path (l : list zt) k : match l with [x; y; z] => zvarea x y z = (0, 0, k)%Z /\ zvarea y z x = (0, 0, k)%Z /\ zvarea z x y = (0, 0, k)%Z | _ => False end -> (1 <= Z.abs k)%Z ->
  forall q, In q (tri_path l) -> minimizeLines q = q /\ ((k < 0)%Z -> clockwise (level 2) q) /\ ((0 < k)%Z -> anticlockwise (level 2) q).
Proof.
  destruct l as [|x [|y [|z [|]]]]; try contradiction. intros (E1 & E2 & E3) K q Hq.
  assert (F1 := zvarea_ok x y z). rewrite E1 in F1. assert (F2 := zvarea_ok y z x). rewrite E2 in F2. assert (F3 := zvarea_ok z x y). rewrite E3 in F3. cbn beta iota in F1, F2, F3.
  assert (D : Vdot (V3 (A := ArithR) 0 0 (IZR k)) (pl_n (level 2)) = IZR k) by (unfold Vdot, level, plane_at; cbn [pl_n vx vy vz]; rcbn; lra).
  unfold tri_path in Hq. destruct Hq as [<-|[<-|[<-|[]]]]; cbn zeta.
  all: split; [apply minimize_triangle; rewrite ?F1, ?F2, ?F3; now apply up_len|]; split; intros S; unfold clockwise, anticlockwise, fan; cbn [length seq map nth Nat.sub];
    (constructor; [right; rewrite ?F1, ?F2, ?F3, D; apply IZR_lt in S; lra|constructor; [left; reflexivity|constructor]]).
Qed.

(** a solid with a cavity, cut through the cavity: the contours are the outline and the
    outline of the hole, and the hole is closed with a lid on both parts: the sides of
    the hole are left over, twice *)
Example ex_hole : exists up down holes, cutMesh go_insertion_sort (map ztr cavity) (level 2) = Ok (up, down) /\ holes <> [] /\
  Forall (fun q => In q (tri_path inside)) holes /\ let h := flat_map path_sides holes in
  same_boundary (sides up) (map back (h ++ h)) /\ same_boundary (sides down) (h ++ h).
Proof.
  destruct ex_cavity as (W & G & D).
  destruct (rings_exact go_insertion_sort (level 2) (map ztr cavity) (ex_sorts ArithR) W G) as (js & J & P & F).
  rewrite (zsections_ok 2 cavity eq_refl) in P by reflexivity. pose proof (cavity_rings js P F) as H.
  assert (O : forall q, In q (tri_path around) -> minimizeLines q = q /\ clockwise (level 2) q).
  { intros q Hq. destruct (turn_path around (-36)%Z ltac:(vm_compute; auto) ltac:(lia) q Hq) as (A & B & _). split; [exact A|]. apply B. lia. }
  assert (N : forall q, In q (tri_path inside) -> minimizeLines q = q /\ anticlockwise (level 2) q).
  { intros q Hq. destruct (turn_path inside 1%Z ltac:(vm_compute; auto) ltac:(lia) q Hq) as (A & _ & B). split; [exact A|]. apply B. lia. }
  assert (Sp : exists outer holes, Permutation js (outer ++ holes) /\ Forall (fun q => In q (tri_path around)) outer /\ Forall (fun q => In q (tri_path inside)) holes).
  { clear -H. induction js as [|q js IH]; [exists [], []; repeat constructor|]. inversion H as [|? ? Hq Hr]; subst. destruct (IH Hr) as (o & h & Q & A & B). destruct Hq as [Hq|Hq].
    - exists (q :: o), h. split; [now constructor|]. split; [now constructor|exact B].
    - exists o, (q :: h). split; [|split; [exact A|now constructor]]. rewrite Q. apply Permutation_middle. }
  destruct Sp as (outer & holes & Q & A & B).
  destruct (C101_holes go_insertion_sort (level 2) (map ztr cavity) js outer holes (ex_sorts ArithR) W G D J) as (up & down & C & U1 & U2).
  - eapply Forall_impl; [|exact H]. intros q [K|K]; [apply (O q K)|apply (N q K)].
  - exact Q.
  - eapply Forall_impl; [|exact A]. intros q K. apply (O q K).
  - eapply Forall_impl; [|exact B]. intros q K. apply (N q K).
  - exists up, down, holes. split; [exact C|]. split; [|split; [exact B|split; assumption]].
    intros ->. rewrite app_nil_r in Q. assert (K : In (zs ((1, 1, 2), (2, 1, 2))%Z) (flat_map path_sides js)).
    { apply (Permutation_in _ (Permutation_sym P)). apply in_map. vm_compute. tauto. }
    apply in_flat_map in K. destruct K as (q & Hq & K). rewrite Forall_forall in A. specialize (A q (Permutation_in _ Q Hq)).
    unfold tri_path, around in A. cbn zeta in A. destruct A as [<-|[<-|[<-|[]]]]; unfold path_sides in K; cbn [tl combine] in K;
      repeat (destruct K as [K|K]; [apply (f_equal fst) in K; unfold zs in K; cbn [fst] in K; apply zq_inj in K; discriminate K|]); destruct K.
Qed.
End Cavity.
