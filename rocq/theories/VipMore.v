(** * Further facts about the five-axis slicers *)
From Coq Require Import String Ascii ZArith NArith List Bool PeanoNat Lia Permutation Reals Lra.
From Verif Require Import Arith ArithR Prim Path Helpers GeomSpec HelperClaims Gcode GcodeSpec GcodeClaims
  Slicer Fill Stl Vip VipClaims VipProofs VipReal.
Import ListNotations.
Close Scope R_scope.
Close Scope Z_scope.
Close Scope num_scope.
Close Scope string_scope.

Section Any.
Context {A : Arith}.

(** ** Lines of a planes file *)
Lemma parsePlane_iff parse ln : (exists p, parsePlane parse ln = Ok p) /\ 5 <= length (fields ln) \/
  parsePlane parse ln = Panic /\ length (fields ln) < 5.
Proof.
  unfold parsePlane, word_tail, idx.
  destruct (fields ln) as [|a [|b [|c [|d [|e r]]]]]; cbn [length nth_error rbind];
    try (right; split; [reflexivity|lia]). left. split; [eexists; reflexivity|lia].
Qed.

Lemma read_lines_iff parse : forall ls, Forall (fun l => length l < max_token) ls ->
  (exists ps, read_lines parse ls = Ok ps /\ length ps = length ls) /\ Forall (fun l => 5 <= length (fields (drop_cr l))) ls \/
  read_lines parse ls = Panic /\ Exists (fun l => length (fields (drop_cr l)) < 5) ls.
Proof.
  induction 1 as [|l ls L F IH]; [left; split; [exists []; auto|constructor]|].
  cbn [read_lines]. destruct (Nat.leb_spec max_token (length l)) as [Q|_]; [lia|].
  destruct (parsePlane_iff parse (drop_cr l)) as [[[p ->] H]|[-> H]]; cbn [rbind].
  - destruct IH as [[(ps & -> & LP) IH]|[-> IH]]; cbn [rbind].
    + left. split; [eexists; split; [reflexivity|cbn; now rewrite LP]|now constructor].
    + right. split; [reflexivity|now right].
  - right. split; [reflexivity|now left].
Qed.

(** ** Tilts of SliceDefault2 *)
Fixpoint tilts (b : bool) (n : nat) : list Z :=
  match n with O => [] | S n => (if b then 60%Z else 0%Z) :: tilts (negb b) n end.

Lemma alternates_beds b cs : alternates (A := A) b cs -> forall r t, t = (if b then 60 else 0)%Z ->
  map snd (print_beds r t cs) = tilts b (length (printed cs)).
Proof.
  induction 1 as [b|b ls|ls a cs H IH|ls cs H IH]; intros r t ->; cbn [print_beds printed map snd length tilts negb]; try reflexivity.
  - f_equal. now apply IH.
  - f_equal. now apply IH.
Qed.

(** ** SliceByProfile *)
Inductive profile_cmds : nat -> list command -> Prop :=
| prof_nil : profile_cmds 0 []
| prof_cons n x z ls cs : profile_cmds n cs -> profile_cmds (S n) (RotateXZ x z :: LayersMoving ls :: cs).

Lemma profile_loop_cmds U s : forall pts m g g', profile_loop U s m pts g = Ok g' ->
  exists cs, g_cmds g' = g_cmds g ++ cs /\ g_sett g' = g_sett g /\ profile_cmds (length pts - 1) cs.
Proof.
  induction pts as [|a pts IH]; intros m g g'; [intros [= <-]; exists []; rewrite app_nil_r; repeat split; constructor|].
  destruct pts as [|b r]; [intros [= <-]; exists []; rewrite app_nil_r; repeat split; constructor|].
  cbn [profile_loop]. cbv zeta.
  destruct (match r with [] => Ok (m, m) | _ => cutMesh (u_ends U) m (Pl b axisZ) end) as [[up down]| |]; try discriminate.
  cbn [rbind]. destruct (sliceByVector U _ axisZ s) as [ls| |]; try discriminate. cbn [rbind].
  intros H. apply IH in H. destruct H as (cs & H1 & H2 & H3). unfold g_addLayers in *. cbn [g_add g_cmds g_sett] in *.
  eexists. split; [rewrite H1, <- !app_assoc; reflexivity|]. split; [exact H2|]. cbn [app length] in *.
  replace (S (S (length r)) - 1) with (S (S (length r) - 1)) by lia. now constructor.
Qed.

(** ** Bed at the end *)
Lemma bridge_cmds U m s layers g : sliceBridge U m s layers = Ok g ->
  exists l1 l2 l3 az, g = Gcode (s_g s) [LayersMoving l1; LayersMoving l2; RotateZ az; InclineX; LayersMoving l3; InclineXBack; RotateZ n0].
Proof.
  unfold sliceBridge. destruct (calcFillPlanes m s) as [fp ff].
  destruct (first_fail _ _ _) as [x| |]; try discriminate. cbn [rbind]. cbv zeta.
  destruct (prepareLayers U _ s fp ff) as [l1| |]; try discriminate. cbn [rbind].
  destruct (layer_point _ _); try discriminate. cbn [rbind].
  destruct (cutMesh _ m _) as [[m1 ?]| |]; try discriminate. cbn [rbind].
  destruct x as [[k np]|]; try discriminate.
  destruct (cutMesh _ m1 _) as [[m2 ?]| |]; try discriminate. cbn [rbind].
  destruct (sliceByVector U _ axisZ s); try discriminate. cbn [rbind].
  destruct (prepareLayers U _ s fp ff) as [l2| |]; try discriminate. cbn [rbind].
  destruct (sliceByVector U _ axisZ s); try discriminate. cbn [rbind].
  destruct (prepareLayers U _ s _ _) as [l3| |]; try discriminate. cbn [rbind]. intros [= <-]. eauto.
Qed.
Lemma rotation_cmds U m s layers g : sliceRotation U m s layers = Ok g ->
  exists l1 l2, g = Gcode (s_g s) [LayersMoving l1; InclineX; LayersMoving l2; InclineXBack].
Proof.
  unfold sliceRotation. destruct (calcFillPlanes m s) as [fp ff].
  destruct (first_fail _ _ _) as [x| |]; try discriminate. cbn [rbind]. cbv zeta.
  destruct (prepareLayers U _ s fp ff) as [l1| |]; try discriminate. cbn [rbind].
  destruct (layer_point _ _); try discriminate. cbn [rbind].
  destruct (cutMesh _ m _) as [[m1 ?]| |]; try discriminate. cbn [rbind].
  destruct (sliceByVector U _ _ s); try discriminate. cbn [rbind].
  destruct (prepareLayers U _ s _ _) as [l3| |]; try discriminate. cbn [rbind]. intros [= <-]. eauto.
Qed.

(** ** A corner of a wall *)
Lemma trim_last : forall r (l n : @line A), exists x xs, trim_lines l (r ++ [n]) = x :: xs /\ xs <> [] /\ lp2 (last xs x) = lp2 n.
Proof.
  induction r as [|m r IH]; intros l n; cbn [app trim_lines].
  - destruct (intersectLine2 l n); eexists _, _; (split; [reflexivity|split; [discriminate|reflexivity]]).
  - destruct (intersectLine2 l m) as [q|];
      [destruct (IH (L2 q (lp2 m)) n) as (x & xs & -> & N & H)|destruct (IH (L2 (lp2 l) (lp2 m)) n) as (x & xs & -> & N & H)];
      eexists _, _; (split; [reflexivity|]); (split; [discriminate|]); rewrite <- H; f_equal; destruct xs as [|z zs]; try congruence;
      apply (last_indep (z :: zs)); discriminate.
Qed.
End Any.

(** ** Parts on the bed *)
Open Scope R_scope.

Lemma vertices_rotate (m : Rmesh) rm c : vertices (m_rotate m rm c) = map (pt_rotate rm c) (vertices m).
Proof.
  unfold vertices, m_rotate. rewrite flat_map_concat_map, flat_map_concat_map, map_map, concat_map, map_map. f_equal.
Qed.

Lemma part_heights (c p : Rpoint) (b : bool) (a : R) (m : Rmesh) :
  let n := read_normal (A := ArithR) b a in
  exists h, Forall2 (fun q q' => Z3 q' - h = sd (Pl p n) q) (vertices m) (vertices (inclined c b (turned c a m))).
Proof.
  intros n.
  set (turn r := pt_rotate (rotationAroundX (A := ArithR) (if b then Ropp 60 else 0)) c (pt_rotate (rotationAroundZ (A := ArithR) a) c r)).
  exists (Z3 (turn p)).
  assert (E : vertices (inclined c b (turned c a m)) = map turn (vertices m)).
  { unfold inclined, turned. destruct b.
    - rewrite !vertices_rotate, map_map. apply map_ext. intros r. unfold turn. 
      assert (Q : @nopp ArithR (@nofZ ArithR 60) = Ropp 60) by (rcbn; reflexivity). now rewrite <- Q.
    - rewrite vertices_rotate. apply map_ext. intros r. unfold turn. set (q := pt_rotate _ _ r).
      unfold pt_rotate. destruct c as [x y z], q as [u v w]. unfold vectorTo, v2p, vadd, p2v. cbn [px py pz].
      match goal with |- context [vrotate (V3 ?a ?b ?c) _] => fold (rv a b c) end. rewrite rotX_eq.
      rewrite (rad 0%R). replace (PI * 0 / 180) with 0 by field. rewrite sin_0, cos_0. unfold rv. cbn [vx vy vz]. rcbn. apply p3_eq; ring. }
  rewrite E. clear E.
  assert (H : forall q, Z3 (turn q) - Z3 (turn p) = sd (Pl p n) q).
  { intros q. refine (height_after c p q n a (if b then Ropp 60 else 0) _). pose proof (read_level b a) as L. unfold axisZ in L. rcbn. exact L. }
  induction (vertices m) as [|q l IH]; cbn [map]; constructor; [apply H|exact IH].
Qed.
Close Scope R_scope.
