(** * Properties C79-C81: closed contours *)
From Coq Require Import String ZArith Reals Lra Lia List Bool Permutation Sorted PeanoNat.
From Flocq Require Import Core.Raux.
From Verif Require Import Arith ArithR ArithF64 Prim Path PathClaims GeomSpec GeomProofs MeshProofs Properties_Geom JoinProofs Slicer SlicerClaims SlicerProofs SlicerProofs2
  Properties_Path Properties_Slicer ClosedClaims JoinClosed JoinClosed2 Watertight.
Import ListNotations.
Close Scope Z_scope.
Close Scope num_scope.
Close Scope string_scope.
Close Scope R_scope.

(** ** C79 JoinPaths3 closes contours *)

Theorem C79_join3_closes : forall (A : Arith) (OK : OrdOK A) srt (p : list path),
  sorts (fun a b => sortp_less (fst a) (fst b)) srt ->
  Forall (fun q : path => 2 <= length q) p -> contours p -> apart p ->
  exists out, joinPaths3 srt p = Ok out /\ regroups (chain pt_equal) p out /\ Forall ring out.
Proof.
  intros A OK srt p HS HL HC HA. destruct (contours_close p srt HL HC HA HS) as (out & E & F).
  destruct (joinPaths3_ok srt p (proj1 HS)) as (out' & E' & R).
  { eapply Forall_impl; [|exact HL]. intros q Hq ->. cbn in Hq. lia. }
  rewrite E in E'. injection E' as <-. exists out. split; [exact E|]. split; [exact R|].
  eapply Forall_impl; [|exact F]. intros q [L C]. split; [exact L|]. unfold isClosed. destruct q as [|a [|b r]]; [reflexivity|reflexivity|].
  cbn [hd] in C. rewrite (last_dflt _ a originPoint) by discriminate. exact C.
Qed.

(** ** C80 Sections of watertight meshes *)

(** every section runs from a side going up through the plane to one going down,
    and where one section ends exactly one other starts *)
Theorem C80_sections : forall (p : Rplane) (m : Rmesh), watertight m -> general_position p m ->
  contours (sections p m) /\ Permutation (map upto (sections p m)) (map from (sections p m)).
Proof. intros p m W G. split; [now apply sections_contours|now apply balanced]. Qed.

Theorem C80_rings : forall srt (p : Rplane) (m : Rmesh),
  sorts (fun a b => sortp_less (fst a) (fst b)) srt -> watertight m -> general_position p m ->
  exists out, joinPaths3 srt (sections p m) = Ok out /\ regroups (chain pt_equal) (sections p m) out /\ Forall ring out.
Proof.
  intros srt p m S W G. destruct (sections_contours p m W G) as (C & A & L). now apply C79_join3_closes; try typeclasses eauto.
Qed.

(** joined where the ends are the same point, the sides of the contour are those of its parts *)
Lemma last_of_app {T} (l r : list T) (d : T) : r <> [] -> last (l ++ r) d = last r d.
Proof.
  intros N. induction l as [|x l IH]; [reflexivity|]. cbn [app]. rewrite <- IH. destruct (l ++ r) eqn:E; [|reflexivity].
  apply app_eq_nil in E. destruct E. contradiction.
Qed.
Lemma path_sides_app (p q : Rpath) (a b : Rpoint) : last (a :: p) a = b -> path_sides ((a :: p) ++ q) = path_sides (a :: p) ++ path_sides (b :: q).
Proof.
  revert a. induction p as [|c p IH]; intros a L.
  - cbn in L. subst b. unfold path_sides. cbn. reflexivity.
  - specialize (IH c). unfold path_sides in *. cbn [tl app combine] in *. f_equal. apply IH.
    rewrite <- L. symmetry. exact (last_dflt (c :: p) a c ltac:(discriminate)).
Qed.
Lemma chain_directed (S : list Rpath) : (forall x y, In x (map upto S) -> In y (map from S) -> pt_equal x y = true -> x = y) ->
  Forall (fun q : Rpath => 2 <= length q) S -> forall q parts, chain pt_equal q parts -> incl parts S ->
  In (from q) (map from S) /\ In (upto q) (map upto S) /\ 2 <= length q /\ path_sides q = flat_map path_sides parts.
Proof.
  intros EQ L q parts C. induction C as [q N|a p b q ps qs C1 IH1 C2 IH2 T]; intros I.
  - assert (In q S) by (apply I; now left). rewrite Forall_forall in L. split; [now apply in_map|]. split; [now apply in_map|].
    split; [now apply L|]. cbn [flat_map]. now rewrite app_nil_r.
  - destruct IH1 as (A1 & A2 & A3 & A4); [intros x Hx; apply I, in_or_app; now left|].
    destruct IH2 as (B1 & B2 & B3 & B4); [intros x Hx; apply I, in_or_app; now right|].
    assert (E : last (a :: p) a = b).
    { apply EQ; [|exact B1|exact T]. unfold upto in A2. rewrite (last_dflt _ a originPoint) by discriminate. exact A2. }
    split; [exact A1|]. split; [|split].
    + destruct q as [|c q]; [cbn in B3; lia|]. unfold upto in *. cbn [app].
      change (a :: p ++ c :: q) with ((a :: p) ++ c :: q). rewrite last_of_app by discriminate. exact B2.
    + rewrite app_length. lia.
    + etransitivity; [exact (path_sides_app p q a b E)|]. etransitivity; [exact (f_equal2 (@app side) A4 B4)|].
      symmetry. exact (flat_map_app path_sides ps qs).
Qed.

(** The sides of the contours, with their direction, are the sections of the triangles, one
    for one; each has the front of its triangle on the left, seen against the normal of the
    plane: the material is on the right. *)
Theorem C80_sides : forall srt (p : Rplane) (m : Rmesh),
  sorts (fun a b => sortp_less (fst a) (fst b)) srt -> watertight m -> general_position p m ->
  exists out, joinPaths3 srt (sections p m) = Ok out /\ Forall ring out /\
    Permutation (flat_map path_sides out) (flat_map path_sides (sections p m)) /\
    forall a b, In (a, b) (flat_map path_sides out) -> exists t e f, In t m /\
      (forall q, (in_tri (t1 t) (t2 t) (t3 t) q /\ sd p q = 0%R) <-> on_seg e f q) /\
      within (5 / 10 ^ 9) a e /\ within (5 / 10 ^ 9) b f /\ (det3 (arrow a b) (pl_n p) (t_n t) <= 0)%R.
Proof.
  intros srt p m S W G. destruct (C80_rings srt p m S W G) as (out & E & (parts & P & F) & R). exists out. split; [exact E|]. split; [exact R|].
  destruct (sections_contours p m W G) as (C & (Sx & Sy & Sz) & L).
  assert (Q : Permutation (flat_map path_sides out) (flat_map path_sides (sections p m))).
  { assert (K : flat_map path_sides out = flat_map path_sides (concat parts)).
    { assert (I : incl (concat parts) (sections p m)) by (intros x; apply Permutation_in, P).
      clear E P R. induction F as [|q l out parts Cq F IH]; [reflexivity|]. cbn [flat_map concat] in *.
      etransitivity; [|symmetry; exact (flat_map_app path_sides l (concat parts))].
      refine (f_equal2 (@app side) _ (IH (fun x Hx => I x (in_or_app _ _ _ (or_intror Hx))))).
      refine (proj2 (proj2 (proj2 (chain_directed (sections p m) _ L q l Cq _)))).
      - intros x y Hx Hy Te. unfold pt_equal in Te. apply andb_true_iff in Te. destruct Te as (Te & Tz). apply andb_true_iff in Te. destruct Te as (Tx & Ty).
        assert (K : forall (f : Rpoint -> R), separated (A := ArithR) (map f (map from (sections p m) ++ map upto (sections p m))) -> almostZero (A := ArithR) (f x - f y)%R = true -> f x = f y).
        { intros f Sf Af. apply Sf in Af; [| |]; try (apply in_map, in_or_app; auto; fail).
          destruct Af as (U & V). change (Rltb (f x) (f y) = false) in U. change (Rltb (f y) (f x) = false) in V.
          apply Rltb_false in U, V. apply Rle_antisym; assumption. }
        pose proof (K px Sx Tx) as Ex. pose proof (K py Sy Ty) as Ey. pose proof (K pz Sz Tz) as Ez. destruct x, y. cbn in Ex, Ey, Ez. now subst.
      - intros x Hx. apply I, in_or_app. now left. }
    etransitivity; [rewrite K; reflexivity|]. now apply Permutation_flat_map. }
  split; [exact Q|]. intros a b Hab. apply (Permutation_in _ Q) in Hab. apply in_flat_map in Hab. destruct Hab as (x & Hx & Hab).
  unfold sections in Hx. apply in_flat_map in Hx. destruct Hx as (t & Ht & Hx). pose proof (C28_triangle p t) as K.
  destruct (intersectTriangle p t) as [l|]; [|destruct Hx]. destruct Hx as [<-|[]]. destruct Hab as [Hab|[]]. injection Hab as <- <-.
  destruct K as (e & f & K1 & K2 & K3 & _ & K5). exists t, e, f. repeat (split; [assumption|]). exact K5.
Qed.

(** ** C81 Slicing *)
Lemma ordpairs_perm {T} (R : T -> T -> Prop) l l' : (forall x y, R x y -> R y x) -> Permutation l l' -> ForallOrdPairs R l -> ForallOrdPairs R l'.
Proof.
  intros Sy P. induction P; intros F; auto.
  - inversion F; subst. constructor; [|auto]. rewrite <- P. assumption.
  - inversion F as [|? ? F1 F2]; subst. inversion F2 as [|? ? F3 F4]; subst. apply Forall_cons_iff in F1. destruct F1 as [F1 F1'].
    constructor; [constructor; [now apply Sy|assumption]|]. constructor; assumption.
Qed.
Lemma contours_perm (l l' : list (@path ArithR)) : Permutation l l' -> contours l -> contours l'.
Proof.
  intros P [(q & Pq & F) O]. split.
  - destruct (Permutation_Forall2 P F) as (q' & Pq' & F'). exists q'. split; [|exact F']. rewrite <- P, Pq. exact Pq'.
  - eapply ordpairs_perm; [|exact P|exact O]. intros x y H. apply pt_equal_R_false in H. apply pt_equal_R_false. intros C. apply H. now apply closer_sym.
Qed.
Lemma apart_perm {A : Arith} (l l' : list path) : Permutation l l' -> apart l -> apart l'.
Proof.
  intros P (H1 & H2 & H3). unfold apart.
  assert (PP : Permutation (map from l ++ map upto l) (map from l' ++ map upto l')) by (apply Permutation_app; now apply Permutation_map).
  assert (K : forall f, separated (map f (map from l ++ map upto l)) -> separated (map f (map from l' ++ map upto l'))).
  { intros f H x y Hx Hy. apply H; (eapply Permutation_in; [apply Permutation_sym, Permutation_map, PP|assumption]). }
  auto.
Qed.

Lemma closed_minimize (q : @path ArithR) : q <> [] -> isClosed q = true -> isClosed (minimizeLines q) = true.
Proof.
  intros N C. destruct (C35_minimize q originPoint N) as (N' & _ & _ & K). specialize (K C).
  set (r := minimizeLines q) in *. destruct r as [|a [|b r']] eqn:Er; [reflexivity|reflexivity|].
  unfold isClosed. rewrite (last_dflt _ a originPoint) by discriminate.
  destruct K as [(_ & H & L)|((c & Hc) & _)].
  - rewrite L. cbn [hd] in H. rewrite H. unfold isClosed in C. destruct q as [|x [|y q']]; [congruence|apply pt_equal_refl|].
    cbn [hd]. now rewrite (last_dflt _ originPoint x) by discriminate.
  - cbn [hd] in Hc. rewrite (last_dflt _ originPoint c), <- Hc by discriminate. apply pt_equal_refl.
Qed.

Theorem C81_closed_layers : forall U (m : Rmesh) (Zv u : Rvector) (s : @settings ArithR) (mn mx : R),
  legal U -> sorts (fun a b => sortp_less (fst a) (fst b)) (u_ends U) -> m <> [] ->
  unit_of Zv u -> Forall (fun p => in_range (Rdot p u)) (vertices m) ->
  lowest u (vertices m) mn -> highest u (vertices m) mx -> (0 < s_layerHeight s)%R -> (mn < mx)%R ->
  s_supportsOn s = false -> watertight m ->
  (forall i, i < Z.to_nat (layers_count (mx - mn) (s_layerHeight s)) ->
     general_position (plane_at u (layer_height_at mn mx (s_layerHeight s) i)) m) ->
  forall ls l q, sliceByVector U m Zv s = Ok ls -> In l ls -> In q (l_paths l) -> isClosed q = true.
Proof.
  intros U m Zv u s mn mx HU HS Hm Hu Hr Hlo Hhi HL Hh Hs W G ls l q E Hl Hq.
  destruct (C22_layers U m Zv u s mn mx HU Hm Hu Hr Hlo Hhi HL Hh) as (sup & S0 & K).
  destruct (K ls l E Hl) as (i & segs & _ & Hi & P & J). rewrite (S0 Hs) in P. cbn [app] in P.
  specialize (G i Hi). set (pl := plane_at u _) in *.
  destruct (sections_contours pl m W G) as (C & Ap & Ln).
  apply Permutation_sym in P. apply (contours_perm _ _ P) in C. apply (apart_perm _ _ P) in Ap.
  assert (Ln' : Forall (fun q : @path ArithR => 2 <= length q) segs).
  { apply Forall_forall. intros x Hx. rewrite Forall_forall in Ln. apply Ln. eapply Permutation_in; [apply Permutation_sym, P|exact Hx]. }
  destruct (C79_join3_closes ArithR _ (u_ends U) segs HS Ln' C Ap) as (out & Eo & _ & F).
  unfold joinPaths3AndMinimize in J. rewrite Eo in J. cbn [rbind] in J. injection J as J. rewrite <- J in Hq.
  apply in_map_iff in Hq. destruct Hq as (x & <- & Hx). rewrite Forall_forall in F. destruct (F x Hx) as [L C'].
  apply closed_minimize; [|exact C']. intros ->. cbn in L. lia.
Qed.

(** ** The hypotheses can be met *)

(** insertion sort, which Go uses for short lists, sorts *)
Example ex_sorts : forall (A : Arith), sorts (fun a b => sortp_less (fst a) (fst b)) go_insertion_sort.
Proof. intros A. apply go_sort_sorts. Qed.

(** C79: a triangle and a square, in float64 *)
Section Run.
Let AF := ArithF64 elem0.
Existing Instance AF.
Definition two_contours : list (@path AF) :=
  [[zpt 0 0 0; zpt 3 0 0]; [zpt 9 1 0; zpt 9 5 0]; [zpt 1 4 0; zpt 0 0 0]; [zpt 9 5 0; zpt 6 5 0];
   [zpt 3 0 0; zpt 1 4 0]; [zpt 6 1 0; zpt 9 1 0]; [zpt 6 5 0; zpt 6 1 0]].
Definition rotation : list (@path AF) :=
  let p i := nth i two_contours [] in [p 4; p 3; p 0; p 6; p 2; p 1; p 5].
Definition sep_b (l : list num) : bool :=
  forallb (fun x => forallb (fun y => nleb x x && Bool.eqb (almostZero (nsub x y)) (negb (nltb x y) && negb (nltb y x))) l) l.
Lemma sep_ok l : sep_b l = true -> separated l.
Proof.
  intros H x y Hx Hy. unfold sep_b in H. rewrite forallb_forall in H. specialize (H x Hx). rewrite forallb_forall in H. specialize (H y Hy).
  apply andb_true_iff in H. destruct H as [H1 H2]. split; [exact H1|]. apply eqb_prop in H2. rewrite H2.
  rewrite andb_true_iff, !negb_true_iff. tauto.
Qed.
Fixpoint ordpairs_b {T} (f : T -> T -> bool) (l : list T) : bool :=
  match l with [] => true | x :: r => forallb (f x) r && ordpairs_b f r end.
Lemma ordpairs_ok {T} (f : T -> T -> bool) l : ordpairs_b f l = true -> ForallOrdPairs (fun x y => f x y = true) l.
Proof.
  induction l as [|x r IH]; intros H; [constructor|]. cbn in H. apply andb_true_iff in H. destruct H as [H1 H2].
  constructor; [|now apply IH]. now apply Forall_forall, forallb_forall.
Qed.
Fixpoint all2_b {T} (f : T -> T -> bool) (l r : list T) : bool :=
  match l, r with [], [] => true | x :: l, y :: r => f x y && all2_b f l r | _, _ => false end.
Lemma all2_ok {T} (f : T -> T -> bool) l r : all2_b f l r = true -> Forall2 (fun x y => f x y = true) l r.
Proof.
  revert r. induction l as [|x l IH]; intros [|y r] H; try discriminate; constructor; cbn in H; apply andb_true_iff in H; [tauto|now apply IH].
Qed.
Example ex_contours : Forall (fun q : path => 2 <= length q) two_contours /\ contours two_contours /\ apart two_contours.
Proof.
  split; [repeat constructor|]. split; [split|].
  - exists rotation. split.
    + unfold rotation, two_contours. cbn [nth]. set (a := [zpt 0 0 0; zpt 3 0 0]). set (b := [zpt 9 1 0; zpt 9 5 0]). set (c := [zpt 1 4 0; zpt 0 0 0]).
      set (d := [zpt 9 5 0; zpt 6 5 0]). set (e := [zpt 3 0 0; zpt 1 4 0]). set (f := [zpt 6 1 0; zpt 9 1 0]). set (g := [zpt 6 5 0; zpt 6 1 0]).
      clearbody a b c d e f g. apply Permutation_trans with [e; a; b; c; d; f; g].
      { change [a; b; c; d; e; f; g] with ([a; b; c; d] ++ e :: [f; g]). symmetry. apply (Permutation_middle [a; b; c; d]). }
      constructor. apply Permutation_trans with [d; a; b; c; f; g].
      { symmetry. apply (Permutation_middle [a; b; c] [f; g] d). }
      constructor. constructor. apply Permutation_trans with [g; b; c; f].
      { symmetry. apply (Permutation_middle [b; c; f] [] g). }
      constructor. apply Permutation_trans with [c; b; f]; [apply perm_swap|]. reflexivity.
    + apply (all2_ok (fun q q' => pt_equal (upto q) (from q'))). vm_compute. reflexivity.
  - assert (H : ForallOrdPairs (fun q q' => negb (pt_equal (from q) (from q')) = true) two_contours).
    { apply (ordpairs_ok (fun q q' => negb (pt_equal (from q) (from q')))). vm_compute. reflexivity. }
    clear -H. induction H as [|x l F _ IH]; constructor; [|exact IH]. eapply Forall_impl; [|exact F]. intros y. cbn. now rewrite negb_true_iff.
  - split; [|split]; apply sep_ok; vm_compute; reflexivity.
Qed.
Example ex_closed_run : match joinPaths3 go_insertion_sort two_contours with
  | Ok out => map (fun q => (isClosed q, length q)) out = [(true, 4); (true, 5)] | _ => False end.
Proof. vm_compute. reflexivity. Qed.

(** an end without a start leaves the contour open *)
Example ex_open : match joinPaths3 go_insertion_sort (removelast two_contours) with
  | Ok out => map (fun q => (isClosed q, length q)) out = [(true, 4); (false, 4)] | _ => False end.
Proof. vm_compute. reflexivity. Qed.
End Run.

(** C80, C81: the tetrahedron *)
Section Tetra.
Local Open Scope R_scope.
Definition za (x y z : Z) : Rpoint := rp (IZR x) (IZR y) (IZR z).
Definition zt : Type := (Z * Z * Z)%type.
Definition zq (t : zt) : Rpoint := let '(x, y, z) := t in za x y z.
Definition zs (e : zt * zt) : side := (zq (fst e), zq (snd e)).
Lemma zq_inj a b : zq a = zq b -> a = b.
Proof. destruct a as [[x y] z], b as [[x' y'] z']. cbn. unfold za, rp. intros H. injection H as H1 H2 H3. apply eq_IZR in H1, H2, H3. congruence. Qed.
Lemma zs_inj a b : zs a = zs b -> a = b.
Proof. destruct a as [a1 a2], b as [b1 b2]. unfold zs. cbn [fst snd]. intros H. injection H as H1 H2. apply zq_inj in H1, H2. congruence. Qed.
Definition tetra_zsides : list (zt * zt) :=
  let a := (0, 0, 0)%Z in let b := (1, 0, 0)%Z in let c := (0, 1, 0)%Z in let d := (0, 0, 1)%Z in
  [(a, c); (c, b); (b, a); (a, b); (b, d); (d, a); (b, c); (c, d); (d, b); (c, a); (a, d); (d, c)].
Lemma tetra_sides : sides tetraR = map zs tetra_zsides.
Proof. reflexivity. Qed.
Definition zeqb (a b : zt) : bool := let '(x, y, z) := a in let '(x', y', z') := b in ((x =? x') && (y =? y') && (z =? z'))%Z.
Definition zseqb (a b : zt * zt) : bool := zeqb (fst a) (fst b) && zeqb (snd a) (snd b).
Lemma zeqb_eq a b : zeqb a b = true <-> a = b.
Proof.
  destruct a as [[x y] z], b as [[x' y'] z']. cbn. rewrite !andb_true_iff, !Z.eqb_eq. split; [intros [[-> ->] ->]; reflexivity|intros [= -> -> ->]; auto].
Qed.
Lemma zseqb_eq a b : zseqb a b = true <-> a = b.
Proof.
  destruct a, b. unfold zseqb. cbn [fst snd]. rewrite andb_true_iff, !zeqb_eq. split; [intros [-> ->]; reflexivity|intros [= -> ->]; auto].
Qed.
Lemma zin l e : existsb (zseqb e) l = true <-> In e l.
Proof. rewrite existsb_exists. split; [intros (x & H & E); apply zseqb_eq in E; now subst|intros H; exists e; split; [exact H|now apply zseqb_eq]]. Qed.
Fixpoint znodup (l : list (zt * zt)) : bool := match l with [] => true | e :: r => negb (existsb (zseqb e) r) && znodup r end.
Lemma znodup_ok l : znodup l = true -> NoDup l.
Proof.
  induction l as [|e r IH]; intros H; [constructor|]. cbn in H. apply andb_true_iff in H. destruct H as [H1 H2]. constructor; [|now apply IH].
  intros K. apply zin in K. rewrite K in H1. discriminate.
Qed.
Example ex_watertight : watertight tetraR.
Proof.
  assert (ND : NoDup tetra_zsides) by (apply znodup_ok; reflexivity).
  split; [|split].
  - rewrite tetra_sides. rewrite map_map.
    assert (E : map (fun x => back (zs x)) tetra_zsides = map zs (map (fun e => (snd e, fst e)) tetra_zsides)) by (rewrite map_map; reflexivity).
    rewrite E. apply Permutation_map. apply NoDup_Permutation.
    + exact ND.
    + apply znodup_ok. reflexivity.
    + intros e. split; intros H; cbn in H; decompose [or] H; try contradiction; subst; apply zin; reflexivity.
  - rewrite tetra_sides. apply FinFun.Injective_map_NoDup; [exact zs_inj|exact ND].
  - repeat constructor; cbn [t1 t2 t3 newTriangle]; try reflexivity; intros H; unfold rp in H; injection H; lra.
Qed.

Lemma sd_flat c (q : Rpoint) : sd (plane_at (V3 (A := ArithR) 0 0 1) c) q = Z3 q - c.
Proof. unfold sd, plane_at. cbn [pl_p pl_n vx vy vz]. unfold X, Y, Z3. cbn [px py pz]. rcbn. ring. Qed.

Example ex_general c : 0 < c < 999 / 1000 -> general_position (plane_at (V3 (A := ArithR) 0 0 1) c) tetraR.
Proof.
  intros Hc. split.
  - intros v Hv. rewrite sd_flat. cbn in Hv. decompose [or] Hv; subst; unfold Z3, rp; cbn [pz]; lra || contradiction.
  - assert (K : forall e q, In e (sides tetraR) -> meets (plane_at (V3 (A := ArithR) 0 0 1) c) e q ->
      exists k v, In (k, v) [(0, rp 0 0 c); (1, rp (1 - c) 0 c); (2, rp 0 (1 - c) c)] /\ q = v /\
        (let w := if Req_EM_T k 0 then za 0 0 0 else if Req_EM_T k 1 then za 1 0 0 else za 0 1 0 in e = (w, za 0 0 1) \/ e = (za 0 0 1, w))).
    { intros e q He [(t & Ht & ->) S]. rewrite sd_flat in S. rewrite tetra_sides in He. cbn in He.
      assert (Up : forall k (a : Rpoint) v, Z3 a = 0 -> e = (a, za 0 0 1) -> X v = X a * (1 - c) -> Y v = Y a * (1 - c) -> Z3 v = c ->
                 In (k, v) [(0, rp 0 0 c); (1, rp (1 - c) 0 c); (2, rp 0 (1 - c) c)] ->
                 (if Req_EM_T k 0 then za 0 0 0 else if Req_EM_T k 1 then za 1 0 0 else za 0 1 0) = a ->
                 exists k v, In (k, v) [(0, rp 0 0 c); (1, rp (1 - c) 0 c); (2, rp 0 (1 - c) c)] /\ along (fst e) (snd e) t = v /\
        (let w := if Req_EM_T k 0 then za 0 0 0 else if Req_EM_T k 1 then za 1 0 0 else za 0 1 0 in e = (w, za 0 0 1) \/ e = (za 0 0 1, w))).
      { intros k a v Za -> Xv Yv Zv I W. exists k, v. split; [exact I|]. cbn [fst snd] in *. unfold along in S. unfold X, Y, Z3 in *. cbn [px py pz za rp] in *. rewrite Za in S.
        split; [|cbv zeta; rewrite W; now left].
        assert (t = c) by (revert S; rcbn; lra). subst t. apply pt_ext; unfold X, Y, Z3, along; cbn [px py pz]; unfold X, Y, Z3, za, rp; cbn [px py pz].
        - rewrite Xv. rcbn. ring.
        - rewrite Yv. rcbn. ring.
        - rewrite Zv, Za. rcbn. ring. }
      assert (Dn : forall k (a : Rpoint) v, Z3 a = 0 -> e = (za 0 0 1, a) -> X v = X a * (1 - c) -> Y v = Y a * (1 - c) -> Z3 v = c ->
                 In (k, v) [(0, rp 0 0 c); (1, rp (1 - c) 0 c); (2, rp 0 (1 - c) c)] ->
                 (if Req_EM_T k 0 then za 0 0 0 else if Req_EM_T k 1 then za 1 0 0 else za 0 1 0) = a ->
                 exists k v, In (k, v) [(0, rp 0 0 c); (1, rp (1 - c) 0 c); (2, rp 0 (1 - c) c)] /\ along (fst e) (snd e) t = v /\
        (let w := if Req_EM_T k 0 then za 0 0 0 else if Req_EM_T k 1 then za 1 0 0 else za 0 1 0 in e = (w, za 0 0 1) \/ e = (za 0 0 1, w))).
      { intros k a v Za -> Xv Yv Zv I W. exists k, v. split; [exact I|]. cbn [fst snd] in *. unfold along in S. unfold X, Y, Z3 in *. cbn [px py pz za rp] in *. rewrite Za in S.
        split; [|cbv zeta; rewrite W; now right].
        assert (t = 1 - c) by (revert S; rcbn; lra). subst t. apply pt_ext; unfold X, Y, Z3, along; cbn [px py pz]; unfold X, Y, Z3, za, rp; cbn [px py pz].
        - rewrite Xv. rcbn. ring.
        - rewrite Yv. rcbn. ring.
        - rewrite Zv, Za. rcbn. ring. }
      assert (W0 : (if Req_EM_T 0 0 then za 0 0 0 else if Req_EM_T 0 1 then za 1 0 0 else za 0 1 0) = za 0 0 0) by (destruct (Req_EM_T 0 0); [reflexivity|lra]).
      assert (W1 : (if Req_EM_T 1 0 then za 0 0 0 else if Req_EM_T 1 1 then za 1 0 0 else za 0 1 0) = za 1 0 0).
      { destruct (Req_EM_T 1 0); [lra|]. destruct (Req_EM_T 1 1); [reflexivity|lra]. }
      assert (W2 : (if Req_EM_T 2 0 then za 0 0 0 else if Req_EM_T 2 1 then za 1 0 0 else za 0 1 0) = za 0 1 0).
      { destruct (Req_EM_T 2 0); [lra|]. destruct (Req_EM_T 2 1); [lra|reflexivity]. }
      assert (Flat : forall a b : Rpoint, e = (a, b) -> Z3 a = 0 -> Z3 b = 0 -> False).
      { intros a b -> Za Zb. cbn [fst snd] in S. unfold along in S. unfold X, Y, Z3 in *. cbn [pz] in S. rewrite Za, Zb in S. revert S. rcbn. lra. }
      assert (R0 : In (0, rp 0 0 c) [(0, rp 0 0 c); (1, rp (1 - c) 0 c); (2, rp 0 (1 - c) c)]) by (now left).
      assert (R1 : In (1, rp (1 - c) 0 c) [(0, rp 0 0 c); (1, rp (1 - c) 0 c); (2, rp 0 (1 - c) c)]) by (right; now left).
      assert (R2 : In (2, rp 0 (1 - c) c) [(0, rp 0 0 c); (1, rp (1 - c) 0 c); (2, rp 0 (1 - c) c)]) by (right; right; now left).
      destruct He as [<-|[<-|[<-|[<-|[<-|[<-|[<-|[<-|[<-|[<-|[<-|[<-|[]]]]]]]]]]]]]; unfold zs in *; cbn [fst snd zq] in *;
        try (exfalso; apply (Flat _ _ eq_refl); unfold Z3, za, rp; cbn [pz]; reflexivity).
      - apply (Up 1 (za 1 0 0) (rp (1 - c) 0 c)); auto; unfold X, Y, Z3, za, rp; cbn [px py pz]; rcbn; ring.
      - apply (Dn 0 (za 0 0 0) (rp 0 0 c)); auto; unfold X, Y, Z3, za, rp; cbn [px py pz]; rcbn; ring.
      - apply (Up 2 (za 0 1 0) (rp 0 (1 - c) c)); auto; unfold X, Y, Z3, za, rp; cbn [px py pz]; rcbn; ring.
      - apply (Dn 1 (za 1 0 0) (rp (1 - c) 0 c)); auto; unfold X, Y, Z3, za, rp; cbn [px py pz]; rcbn; ring.
      - apply (Up 0 (za 0 0 0) (rp 0 0 c)); auto; unfold X, Y, Z3, za, rp; cbn [px py pz]; rcbn; ring.
      - apply (Dn 2 (za 0 1 0) (rp 0 (1 - c) c)); auto; unfold X, Y, Z3, za, rp; cbn [px py pz]; rcbn; ring. }
    intros e e' q q' He He' Hq Hq'.
    destruct (K e q He Hq) as (k & v & I & -> & E). destruct (K e' q' He' Hq') as (k' & v' & I' & -> & E').
    assert (Far : forall x y : R, x = y \/ Rabs (x - y) = 1 - c -> clear_of x y).
    { intros x y [H|H]; [now left|right]. rewrite H. lra. }
    assert (A1 : Rabs (0 - (1 - c)) = 1 - c) by (rewrite Rabs_left; lra).
    assert (A2 : Rabs (1 - c - 0) = 1 - c) by (rewrite Rabs_right; lra).
    assert (Same : k = k' -> e' = e \/ e' = back e).
    { intros <-. cbv zeta in E, E'. destruct E as [-> | ->], E' as [-> | ->]; unfold back; cbn [fst snd]; auto. }
    destruct I as [I|[I|[I|[]]]]; injection I as <- <-; (destruct I' as [I'|[I'|[I'|[]]]]; injection I' as <- <-);
      unfold X, Y, Z3, rp; cbn [px py pz]; (split; [apply Far; auto|]); (split; [apply Far; auto|]); (split; [apply Far; auto|]);
      try (intros _; apply Same; reflexivity); intros H; exfalso; injection H; intros; lra.
Qed.

(** the four layers of height 0.3 *)
Example ex_layers : forall i, (i < Z.to_nat (layers_count (1 - 0) (3 / 10)))%nat ->
  general_position (plane_at (V3 (A := ArithR) 0 0 1) (layer_height_at 0 1 (3 / 10) i)) tetraR.
Proof.
  intros i Hi. apply ex_general. unfold layer_height_at. rewrite ex_count in *. cbn in Hi.
  destruct i as [|[|[|[|i]]]]; [| | | |lia]; cbn [INR]; lra.
Qed.
End Tetra.

Print Assumptions C79_join3_closes.
Print Assumptions C80_sections.
Print Assumptions C80_rings.
Print Assumptions C80_sides.
Print Assumptions C81_closed_layers.
