(** * Contours and the model they are cut from: the sections of a model *)
From Coq Require Import Reals Lra Lia List Bool ZArith PeanoNat Permutation.
From Flocq Require Import Core.Raux.
From Verif Require Import Arith ArithR Prim Path PathClaims MinProofs GeomSpec GeomProofs MeshProofs JoinProofs Slicer SlicerClaims Properties_Path ClosedClaims JoinClosed JoinClosed2
  Watertight Properties_Closed InsideClaims InsideProofs FillInsideProofs SolidClaims SolidProofs.
Import ListNotations.
Close Scope Z_scope.
Close Scope num_scope.
Local Open Scope R_scope.

Section Height.
Variable p : Rplane.
Variable h : R.
Hypothesis Flat : forall x, sd p x = Z3 x - h.

Lemma section_ends (t : Rtriangle) eu ed : sd p (t1 t) <> 0 -> sd p (t2 t) <> 0 -> sd p (t3 t) <> 0 ->
  filter (going_up p) (tri_sides t) = [eu] -> filter (going_down p) (tri_sides t) = [ed] ->
  section_is p (t1 t) (t2 t) (t3 t) (at_plane p eu) (at_plane p ed).
Proof.
  intros Ha Hb Hc. set (a := t1 t) in *. set (b := t2 t) in *. set (c := t3 t) in *. unfold tri_sides. fold a b c. cbn [filter].
  assert (Up : forall x y : @point ArithR, sd p x < 0 -> 0 < sd p y -> going_up p (x, y) = true /\ going_down p (x, y) = false).
  { intros x y H1 H2. split; [apply up_true; now split|]. apply not_true_is_false. rewrite down_true. cbn [fst snd]. lra. }
  assert (Down : forall x y : @point ArithR, 0 < sd p x -> sd p y < 0 -> going_up p (x, y) = false /\ going_down p (x, y) = true).
  { intros x y H1 H2. split; [|apply down_true; now split]. apply not_true_is_false. rewrite up_true. cbn [fst snd]. lra. }
  assert (Ne1 : forall x y : @point ArithR, sd p x < 0 -> sd p y < 0 -> going_up p (x, y) = false /\ going_down p (x, y) = false).
  { intros x y H1 H2. split; apply not_true_is_false; rewrite ?up_true, ?down_true; cbn [fst snd]; lra. }
  assert (Ne2 : forall x y : @point ArithR, 0 < sd p x -> 0 < sd p y -> going_up p (x, y) = false /\ going_down p (x, y) = false).
  { intros x y H1 H2. split; apply not_true_is_false; rewrite ?up_true, ?down_true; cbn [fst snd]; lra. }
  assert (MP : forall x y, x < 0 -> 0 < y -> x * y <= 0) by (intros x y H1 H2; assert (0 < (- x) * y) by (apply Rmult_lt_0_compat; lra); lra).
  assert (MP' : forall x y, 0 < x -> y < 0 -> x * y <= 0) by (intros x y H1 H2; assert (0 < x * (- y)) by (apply Rmult_lt_0_compat; lra); lra).
  assert (Cs : forall x y : Rpoint, sd p x <> sd p y -> cut p x y = cut p y x) by (intros; now apply cut_sym).
  assert (Sg : forall x, x <> 0 -> x < 0 \/ 0 < x) by (intros; lra).
  destruct (Sg _ Ha) as [A|A], (Sg _ Hb) as [B|B], (Sg _ Hc) as [C|C].
  - destruct (Ne1 a b A B) as [-> ->], (Ne1 b c B C) as [-> ->], (Ne1 c a C A) as [-> ->]. discriminate.
  - destruct (Ne1 a b A B) as [-> ->], (Up b c B C) as [-> ->], (Down c a C A) as [-> ->]. intros [= <-] [= <-]. unfold at_plane. cbn [fst snd].
    rewrite section_rot, section_rot. rewrite (Cs b c) by lra. apply section_swap, alone; auto.
  - destruct (Up a b A B) as [-> ->], (Down b c B C) as [-> ->], (Ne1 c a C A) as [-> ->]. intros [= <-] [= <-]. unfold at_plane. cbn [fst snd].
    rewrite section_rot. rewrite (Cs a b) by lra. apply section_swap, alone; auto.
  - destruct (Up a b A B) as [-> ->], (Ne2 b c B C) as [-> ->], (Down c a C A) as [-> ->]. intros [= <-] [= <-]. unfold at_plane. cbn [fst snd].
    rewrite (Cs c a) by lra. apply alone; auto.
  - destruct (Down a b A B) as [-> ->], (Ne1 b c B C) as [-> ->], (Up c a C A) as [-> ->]. intros [= <-] [= <-]. unfold at_plane. cbn [fst snd].
    rewrite (Cs c a) by lra. apply section_swap, alone; auto.
  - destruct (Down a b A B) as [-> ->], (Up b c B C) as [-> ->], (Ne2 c a C A) as [-> ->]. intros [= <-] [= <-]. unfold at_plane. cbn [fst snd].
    rewrite section_rot. rewrite (Cs a b) by lra. apply alone; auto.
  - destruct (Ne2 a b A B) as [-> ->], (Down b c B C) as [-> ->], (Up c a C A) as [-> ->]. intros [= <-] [= <-]. unfold at_plane. cbn [fst snd].
    rewrite section_rot, section_rot. rewrite (Cs b c) by lra. apply alone; auto.
  - destruct (Ne2 a b A B) as [-> ->], (Ne2 b c B C) as [-> ->], (Ne2 c a C A) as [-> ->]. discriminate.
Qed.

(** a triangle of which no side crosses the plane has no point in it *)
Lemma no_section (t : Rtriangle) x : sd p (t1 t) <> 0 -> sd p (t2 t) <> 0 -> sd p (t3 t) <> 0 ->
  filter (going_up p) (tri_sides t) = [] -> filter (going_down p) (tri_sides t) = [] -> in_tri (t1 t) (t2 t) (t3 t) x -> sd p x <> 0.
Proof.
  intros Ha Hb Hc. set (a := t1 t) in *. set (b := t2 t) in *. set (c := t3 t) in *. unfold tri_sides. fold a b c. cbn [filter].
  assert (S : forall y z : @point ArithR, going_up p (y, z) = false -> going_down p (y, z) = false -> sd p y <> 0 -> sd p z <> 0 -> (sd p y < 0 <-> sd p z < 0)).
  { intros y z U D Hy Hz. assert (U' : ~ (sd p y < 0 /\ 0 < sd p z)) by (intros K; apply (up_true p (y, z)) in K; congruence).
    assert (D' : ~ (0 < sd p y /\ sd p z < 0)) by (intros K; apply (down_true p (y, z)) in K; congruence). lra. }
  destruct (going_up p (a, b)) eqn:U1; [discriminate|]. destruct (going_up p (b, c)) eqn:U2; [discriminate|]. destruct (going_up p (c, a)) eqn:U3; [discriminate|].
  destruct (going_down p (a, b)) eqn:D1; [discriminate|]. destruct (going_down p (b, c)) eqn:D2; [discriminate|]. intros _ _.
  pose proof (S a b U1 D1 Ha Hb) as S1. pose proof (S b c U2 D2 Hb Hc) as S2.
  intros (u & v & w & Hu & Hv & Hw & Su & ->).
  assert (E : sd p (comb3 u v w a b c) = u * sd p a + v * sd p b + w * sd p c).
  { rewrite !Flat. unfold comb3. unfold Z3 at 1. cbn [pz]. rcbn. transitivity (u * Z3 a + v * Z3 b + w * Z3 c - (u + v + w) * h); [rewrite Su|]; unfold Z3; ring. }
  rewrite E. clear E S U1 U2 U3 D1 D2. destruct (Rlt_le_dec (sd p a) 0) as [A|A].
  - assert (B : sd p b < 0) by tauto. assert (C : sd p c < 0) by tauto.
    assert (M : exists k, 0 < k /\ k <= - sd p a /\ k <= - sd p b /\ k <= - sd p c).
    { exists (Rmin (- sd p a) (Rmin (- sd p b) (- sd p c))). split; [repeat apply Rmin_glb_lt; lra|]. split; [apply Rmin_l|].
      split; (eapply Rle_trans; [apply Rmin_r|]); [apply Rmin_l|apply Rmin_r]. }
    destruct M as (k & Kp & Ka & Kb & Kc). pose proof (Rmult_le_compat_l u _ _ Hu Ka). pose proof (Rmult_le_compat_l v _ _ Hv Kb). pose proof (Rmult_le_compat_l w _ _ Hw Kc).
    assert ((u + v + w) * k = k) by (rewrite Su; ring). lra.
  - assert (A' : 0 < sd p a) by lra. assert (B : 0 < sd p b) by lra. assert (C : 0 < sd p c) by lra.
    assert (M : exists k, 0 < k /\ k <= sd p a /\ k <= sd p b /\ k <= sd p c).
    { exists (Rmin (sd p a) (Rmin (sd p b) (sd p c))). split; [repeat apply Rmin_glb_lt; lra|]. split; [apply Rmin_l|].
      split; (eapply Rle_trans; [apply Rmin_r|]); [apply Rmin_l|apply Rmin_r]. }
    destruct M as (k & Kp & Ka & Kb & Kc). pose proof (Rmult_le_compat_l u _ _ Hu Ka). pose proof (Rmult_le_compat_l v _ _ Hv Kb). pose proof (Rmult_le_compat_l w _ _ Hw Kc).
    assert ((u + v + w) * k = k) by (rewrite Su; ring). lra.
Qed.

Definition xs q dx dy (l : list side) : bool := fold_right xorb false (map (fun e => hb q dx dy (fst e) (snd e)) l).
Lemma xs_app q dx dy l r : xs q dx dy (l ++ r) = xorb (xs q dx dy l) (xs q dx dy r).
Proof. unfold xs. induction l as [|e l IH]; cbn [app map fold_right]; [now rewrite xorb_false_l|]. rewrite IH. now rewrite xorb_assoc. Qed.
Lemma xs_perm q dx dy l r : Permutation l r -> xs q dx dy l = xs q dx dy r.
Proof.
  unfold xs. induction 1; cbn [map fold_right]; [reflexivity|congruence| |congruence].
  rewrite <- !xorb_assoc. f_equal. apply xorb_comm.
Qed.
Lemma par_xs q dx dy (r : Rpath) : par q dx dy r = xs q dx dy (path_sides r).
Proof. induction r as [|a [|b r] IH]; [reflexivity|reflexivity|]. rewrite par_two, IH. reflexivity. Qed.

Variable m : Rmesh.
Hypothesis WT : watertight m.
Hypothesis GP : general_position p m.
Variable q : Rpoint.
Hypothesis Hq : Z3 q = h.
Hypothesis Off : off_surface (5 / 10 ^ 9) q m.

(** a section of a triangle *)
Lemma one_section t : In t m ->
  (intersectTriangle p t = None /\ forall dx dy, ~ ray_meets q dx dy t) \/
  (exists l, intersectTriangle p t = Some l /\ corner m h (lp1 l) /\ corner m h (lp2 l) /\ side_off q (lp1 l) (lp2 l) /\
     forall dx dy, clear_ray (5 / 10 ^ 9) q dx dy m ->
       (hits q dx dy (lp1 l) (lp2 l) <-> ray_meets q dx dy t) /\ pos q dx dy (lp1 l) <> 0 /\ pos q dx dy (lp2 l) <> 0).
Proof.
  intros Ht. destruct WT as (_ & _ & W). rewrite Forall_forall in W. destruct (W t Ht) as (D1 & D2 & D3 & Et). destruct (GP) as [G _].
  assert (S1 : forall e, In e (tri_sides t) -> In e (sides m)) by (intros e He; apply in_flat_map; eauto).
  assert (Vs : forall v, In v [t1 t; t2 t; t3 t] -> sd p v <> 0) by (intros v Hv; apply G; apply in_flat_map; eauto).
  assert (V1 : sd p (t1 t) <> 0) by (apply Vs; cbn; auto). assert (V2 : sd p (t2 t) <> 0) by (apply Vs; cbn; auto). assert (V3 : sd p (t3 t) <> 0) by (apply Vs; cbn; auto).
  assert (Ray : forall dx dy, ray_meets q dx dy t <-> exists s, 0 < s /\ in_tri (t1 t) (t2 t) (t3 t) (P3 (A := ArithR) (X q + s * dx)%R (Y q + s * dy)%R h)).
  { intros dx dy. unfold ray_meets. rewrite Hq. reflexivity. }
  assert (At : forall x y, sd p (P3 (A := ArithR) x y h) = 0) by (intros; rewrite Flat; unfold Z3; cbn [pz]; lra).
  destruct (tri_section p t Et V1 V2 V3) as [(E & E1 & E2)|(eu & ed & E1 & E2 & E)].
  - intros e e' He He' Hu Hd. apply (different_far p m GP); auto.
    + intros ->. apply up_true in Hu. apply down_true in Hd. lra.
    + intros ->. unfold tri_sides, back in He, He'.
      destruct He as [<-|[<-|[<-|[]]]]; cbn [fst snd] in He'; destruct He' as [X1|[X1|[X1|[]]]]; congruence.
  - left. split; [exact E|]. intros dx dy M. apply Ray in M. destruct M as (s & _ & M). now apply (no_section t _ V1 V2 V3 E1 E2 M).
  - right. exists (L2 (pt_round8 (at_plane p eu)) (pt_round8 (at_plane p ed))). split; [exact E|]. cbn [lp1 lp2].
    pose proof (section_ends t eu ed V1 V2 V3 E1 E2) as Sec. set (e := at_plane p eu) in *. set (f := at_plane p ed) in *.
    assert (Hu : In eu (tri_sides t) /\ going_up p eu = true) by (apply filter_In; rewrite E1; now left).
    assert (Hd : In ed (tri_sides t) /\ going_down p ed = true) by (apply filter_In; rewrite E2; now left).
    destruct Hu as (Iu & Gu). destruct Hd as (Id & Gd).
    destruct (cut_meets p eu (or_introl Gu)) as (Ou & Zu). destruct (cut_meets p ed (or_intror Gd)) as (Od & Zd). fold e in Ou, Zu. fold f in Od, Zd.
    rewrite Flat in Zu, Zd.
    split; [exists eu, e; repeat split; [now apply S1|exact Ou|lra]|]. split; [exists ed, f; repeat split; [now apply S1|exact Od|lra]|].
    pose proof (pt_round8_near e) as (Nx & Ny & _). pose proof (pt_round8_near f) as (Mx & My & _).
    replace (/ 200000000) with (5 / 10 ^ 9) in * by lra.
    assert (Offs : forall x, on_seg e f x -> ~ (Rabs (X x - X q) <= 5 / 10 ^ 9 /\ Rabs (Y x - Y q) <= 5 / 10 ^ 9)).
    { intros x Ox. apply Sec in Ox. destruct Ox as (Tx & Zx). rewrite Flat in Zx. apply (Off t x Ht Tx). lra. }
    split.
    + intros x (k & Hk & Ex) (Qx & Qy). apply (Offs (along e f k)); [exists k; split; [exact Hk|reflexivity]|].
      assert (Near : forall a b a' b' : R, Rabs (a' - a) <= 5 / 10 ^ 9 -> Rabs (b' - b) <= 5 / 10 ^ 9 -> Rabs ((a + k * (b - a)) - (a' + k * (b' - a'))) <= 5 / 10 ^ 9).
      { intros a b a' b' H1 H2. apply Rabs_le_inv in H1. apply Rabs_le_inv in H2. apply Rabs_le.
        assert (K1 : 0 <= (1 - k)) by lra. assert (K2 : 0 <= k) by lra.
        pose proof (Rmult_le_compat_l _ _ _ K1 (proj1 H1)). pose proof (Rmult_le_compat_l _ _ _ K1 (proj2 H1)).
        pose proof (Rmult_le_compat_l _ _ _ K2 (proj1 H2)). pose proof (Rmult_le_compat_l _ _ _ K2 (proj2 H2)). lra. }
      subst x. rewrite <- Qx, <- Qy. split; [exact (Near _ _ _ _ Nx Mx)|exact (Near _ _ _ _ Ny My)].
    + intros dx dy Cl.
      destruct (stable q dx dy (pt_round8 e) (pt_round8 f) e f (5 / 10 ^ 9) Nx Ny Mx My) as (St & Pa & Pb); [| |exact Offs|].
      * apply (Cl eu e); [now apply S1|exact Ou|lra].
      * apply (Cl ed f); [now apply S1|exact Od|lra].
      * split; [|split; assumption]. rewrite St, Ray.
        assert (Ze : Z3 e = h) by lra. assert (Zf : Z3 f = h) by lra.
        split.
        -- intros (s & k & Hs & Hk & Ex & Ey). exists s. split; [exact Hs|]. apply (Sec (P3 (A := ArithR) (X q + s * dx)%R (Y q + s * dy)%R h)).
           exists k. split; [lra|]. apply pt_ext; [exact (eq_sym Ex)|exact (eq_sym Ey)|]. change (h = Z3 e + k * (Z3 f - Z3 e)). rewrite Ze, Zf. ring.
        -- intros (s & Hs & T). assert (O : on_seg e f (P3 (A := ArithR) (X q + s * dx)%R (Y q + s * dy)%R h)) by (apply Sec; split; [exact T|apply At]).
           destruct O as (k & Hk & Ek). injection Ek as Ex Ey _.
           change (X q + s * dx = X e + k * (X f - X e)) in Ex. change (Y q + s * dy = Y e + k * (Y f - Y e)) in Ey.
           assert (Pe : pos q dx dy e <> 0).
           { intros K. pose proof (Cl eu e (S1 _ Iu) Ou ltac:(lra)) as C. unfold pos in K. rewrite K, Rabs_R0 in C. pose proof (Rabs_pos dx). pose proof (Rabs_pos dy). lra. }
           assert (Pf : pos q dx dy f <> 0).
           { intros K. pose proof (Cl ed f (S1 _ Id) Od ltac:(lra)) as C. unfold pos in K. rewrite K, Rabs_R0 in C. pose proof (Rabs_pos dx). pose proof (Rabs_pos dy). lra. }
           assert (K0 : k <> 0).
           { intros ->. apply Pe. unfold pos. replace (Y e - Y q) with (s * dy) by lra. replace (X e - X q) with (s * dx) by lra. ring. }
           assert (K1 : k <> 1).
           { intros ->. apply Pf. unfold pos. replace (Y f - Y q) with (s * dy) by lra. replace (X f - X q) with (s * dx) by lra. ring. }
           exists s, k. split; [exact Hs|]. split; [lra|]. split; [symmetry; exact Ex|symmetry; exact Ey].
Qed.

Lemma sections_parity dx dy m' : clear_ray (5 / 10 ^ 9) q dx dy m -> incl m' m -> forall n, pierced q dx dy m' n ->
  xs q dx dy (flat_map path_sides (sections p m')) = Nat.odd n.
Proof.
  intros Cl. induction m' as [|t m' IH]; intros Inc n P.
  - inversion P; subst. reflexivity.
  - assert (Ht : In t m) by (apply Inc; now left). assert (I' : incl m' m) by (intros x Hx; apply Inc; now right).
    assert (Sp : flat_map path_sides (sections p (t :: m')) =
      match intersectTriangle p t with Some l => [(lp1 l, lp2 l)] | None => [] end ++ flat_map path_sides (sections p m')).
    { unfold sections. cbn [flat_map]. destruct (intersectTriangle p t); reflexivity. }
    rewrite Sp, xs_app. clear Sp.
    destruct (one_section t Ht) as [(E & Nm)|(l & E & _ & _ & _ & Sec)]; rewrite E.
    + inversion P as [|? ? k Mt P'|? ? k Mt P']; subst; [now apply Nm in Mt|]. rewrite (IH I' n P'). apply xorb_false_l.
    + destruct (Sec dx dy Cl) as (Hm & Pa & Pb).
      assert (Ex : xs q dx dy [(lp1 l, lp2 l)] = hb q dx dy (lp1 l) (lp2 l)) by (unfold xs; cbn; apply xorb_false_r).
      rewrite Ex. inversion P as [|? ? k Mt P'|? ? k Mt P']; subst.
      * rewrite (IH I' k P'). apply Hm in Mt. apply (hb_hits q dx dy _ _ Pa Pb) in Mt. rewrite Mt, Nat.odd_succ, <- Nat.negb_odd. now destruct (Nat.odd k).
      * rewrite (IH I' n P'). assert (Hf : hb q dx dy (lp1 l) (lp2 l) = false); [|rewrite Hf; apply xorb_false_l].
        apply not_true_is_false. intros K. apply Mt, Hm. now apply (hb_hits q dx dy _ _ Pa Pb).
Qed.

Lemma section_sides a b : In (a, b) (flat_map path_sides (sections p m)) ->
  corner m h a /\ corner m h b /\ side_off q a b /\ forall dx dy, clear_ray (5 / 10 ^ 9) q dx dy m -> pos q dx dy a <> 0 /\ pos q dx dy b <> 0.
Proof.
  intros I. apply in_flat_map in I. destruct I as (x & Hx & Hab). unfold sections in Hx. apply in_flat_map in Hx. destruct Hx as (t & Ht & Hx).
  destruct (one_section t Ht) as [(E & _)|(l & E & C1 & C2 & So & Sec)]; rewrite E in Hx; [destruct Hx|]. destruct Hx as [<-|[]].
  destruct Hab as [Hab|[]]. injection Hab as <- <-. split; [exact C1|]. split; [exact C2|]. split; [exact So|]. intros dx dy Cl. now apply Sec.
Qed.

Lemma exact_ends x y : In x (map upto (sections p m)) -> In y (map from (sections p m)) -> pt_equal (A := ArithR) x y = true -> x = y.
Proof.
  destruct (sections_contours p m WT GP) as (_ & (Sx & Sy & Sz) & _). intros Hx Hy Te.
  unfold pt_equal in Te. apply andb_true_iff in Te. destruct Te as (Te & Tz). apply andb_true_iff in Te. destruct Te as (Tx & Ty).
  assert (K : forall (f : Rpoint -> R), separated (A := ArithR) (map f (map from (sections p m) ++ map upto (sections p m))) -> almostZero (A := ArithR) (f x - f y)%R = true -> f x = f y).
  { intros f Sf Af. apply Sf in Af; [| |]; try (apply in_map, in_or_app; auto; fail).
    destruct Af as (U & V). change (Rltb (f x) (f y) = false) in U. change (Rltb (f y) (f x) = false) in V.
    apply Rltb_false in U, V. apply Rle_antisym; assumption. }
  exact (pt_ext x y (K px Sx Tx) (K py Sy Ty) (K pz Sz Tz)).
Qed.

Lemma joined srt segs : sorts (fun a b => sortp_less (fst a) (fst b)) srt -> Permutation segs (sections p m) ->
  exists out, joinPaths3 srt segs = Ok out /\ Permutation (flat_map path_sides out) (flat_map path_sides (sections p m)) /\
    Forall (fun r : Rpath => returns r /\ (2 <= length r)%nat) out.
Proof.
  intros Hs P0. destruct (sections_contours p m WT GP) as (C & Ap & Ln). pose proof (Permutation_sym P0) as P1.
  apply (contours_perm _ _ P1) in C. apply (apart_perm _ _ P1) in Ap.
  assert (Ln' : Forall (fun q : @path ArithR => (2 <= length q)%nat) segs).
  { apply Forall_forall. intros x Hx. rewrite Forall_forall in Ln. apply Ln. eapply Permutation_in; [exact P0|exact Hx]. }
  destruct (C79_join3_closes ArithR _ srt segs Hs Ln' C Ap) as (out & Eo & (parts & P & F) & R). exists out. split; [exact Eo|].
  assert (I : incl (concat parts) (sections p m)) by (intros x Hx; eapply Permutation_in; [exact P0|]; eapply Permutation_in; [exact P|exact Hx]).
  assert (Kd : Forall2 (fun r l => path_sides r = flat_map path_sides l /\ returns r /\ (2 <= length r)%nat) out parts).
  { clear Eo P. induction F as [|r l out parts Cr F IH]; [constructor|]. apply Forall_cons_iff in R. destruct R as (R1 & R2). cbn [concat] in I.
    constructor; [|apply IH; [exact R2|intros x Hx; apply I, in_or_app; now right]].
    destruct (chain_directed (sections p m) exact_ends Ln r l Cr (fun x Hx => I x (in_or_app _ _ _ (or_introl Hx)))) as (H1 & H2 & H3 & H4).
    split; [exact H4|]. split; [|exact H3]. destruct r as [|b [|c r]]; [cbn in H3; lia|cbn in H3; lia|]. exists b, (c :: r). split; [reflexivity|].
    destruct R1 as (_ & Cl). unfold isClosed in Cl. unfold upto, from in H1, H2. cbn [hd] in H1. rewrite (last_dflt _ originPoint b) in H2 by discriminate.
    apply exact_ends; [exact H2|exact H1|]. apply pt_equal_R. apply pt_equal_R in Cl. now apply closer_sym. }
  split.
  - assert (K : flat_map path_sides out = flat_map path_sides (concat parts)).
    { clear - Kd. induction Kd as [|r l out parts (H & _) F IH]; [reflexivity|]. cbn [flat_map concat]. rewrite flat_map_app. now rewrite H, IH. }
    rewrite K. apply Permutation_flat_map. etransitivity; [exact P|exact P0].
  - clear - Kd. induction Kd as [|r l out parts (_ & H) F IH]; constructor; assumption.
Qed.

Lemma even_odd_loops d1 d2 e1 e2 ps : Forall returns ps -> Forall (beside q) ps ->
  Forall (fun p => free_dir q p d1 d2) ps -> Forall (fun p => free_dir q p e1 e2) ps ->
  Nat.odd (cnt_all q d1 d2 ps) = Nat.odd (cnt_all q e1 e2 ps).
Proof.
  intros C B F G. induction C as [|x ps Hp C IH]; [reflexivity|].
  inversion B as [|? ? B1 B2]; subst. inversion F as [|? ? F1 F2]; subst. inversion G as [|? ? G1 G2]; subst.
  cbn [cnt_all]. rewrite !Nat.odd_add, (IH B2 F2 G2). f_equal.
  destruct Hp as (b & r & -> & L). apply even_odd; assumption.
Qed.

Lemma in_side (r : Rpath) x : (2 <= length r)%nat -> In x r -> exists a b, In (a, b) (path_sides r) /\ (x = a \/ x = b).
Proof.
  induction r as [|a [|b r] IH]; cbn [length]; intros L I; [lia|lia|].
  destruct I as [<-|I]; [exists a, b; split; [now left|now left]|].
  destruct r as [|c r].
  - destruct I as [<-|[]]. exists a, b. split; [now left|now right].
  - destruct IH as (u & v & H1 & H2); [cbn; lia|exact I|]. exists u, v. split; [now right|exact H2].
Qed.
Lemma next_side (r : Rpath) a b : next_in r a b -> In (a, b) (path_sides r).
Proof.
  intros (l & s & ->). induction l as [|x [|y l] IH]; [now left|right; now left|]. right. exact IH.
Qed.

(** inside the contours is inside the model *)
Lemma solid srt segs ps : sorts (fun a b => sortp_less (fst a) (fst b)) srt -> Permutation segs (sections p m) ->
  no_sliver q (corner m h) -> joinPaths3AndMinimize srt segs = Ok ps ->
  Forall (beside q) ps /\
  forall dx dy n, clear_ray (5 / 10 ^ 9) q dx dy m -> pierced q dx dy m n ->
    (enclosed_all q ps <-> Nat.odd n = true) /\ Forall (fun r => free_dir q r dx dy) ps.
Proof.
  intros Hs P0 NS J. destruct (joined srt segs Hs P0) as (out & Eo & P & F).
  unfold joinPaths3AndMinimize in J. rewrite Eo in J. cbn [rbind] in J. injection J as <-.
  assert (KZ : forall x, corner m h x -> Z3 x = round8 (A := ArithR) h).
  { intros x (e & y & _ & _ & <- & ->). reflexivity. }
  assert (Ring : forall r, In r out -> Forall (corner m h) r /\ beside q r /\ forall dx dy, clear_ray (5 / 10 ^ 9) q dx dy m -> Forall (fun x => pos q dx dy x <> 0) r).
  { intros r Ir. rewrite Forall_forall in F. destruct (F r Ir) as (_ & L).
    assert (Sd : forall a b, In (a, b) (path_sides r) -> In (a, b) (flat_map path_sides (sections p m))).
    { intros a b I. eapply Permutation_in; [exact P|]. apply in_flat_map. eauto. }
    split; [|split].
    - rewrite Forall_forall. intros x Hx. destruct (in_side r x L Hx) as (a & b & I & Hab). destruct (section_sides a b (Sd a b I)) as (Ca & Cb & _). destruct Hab as [-> | ->]; assumption.
    - intros a b x Nx. apply next_side in Nx. destruct (section_sides a b (Sd a b Nx)) as (_ & _ & So & _). apply So.
    - intros dx dy Cl. rewrite Forall_forall. intros x Hx. destruct (in_side r x L Hx) as (a & b & I & Hab). destruct (section_sides a b (Sd a b I)) as (_ & _ & _ & Ps).
      destruct (Ps dx dy Cl). destruct Hab as [-> | ->]; assumption. }
  assert (Min : forall r, In r out -> returns (minimizeLines (A := ArithR) r) /\ beside q (minimizeLines (A := ArithR) r) /\
    forall dx dy, clear_ray (5 / 10 ^ 9) q dx dy m -> free_dir q (minimizeLines (A := ArithR) r) dx dy /\ par q dx dy (minimizeLines (A := ArithR) r) = par q dx dy r).
  { intros r Ir. destruct (Ring r Ir) as (Kr & Br & Pr). rewrite Forall_forall in F. destruct (F r Ir) as (Lr & _).
    destruct (minimize_stands q (corner m h) NS r Lr) as (St & Lo). destruct (St Kr Br) as (_ & B' & Inc & Pa). split; [exact Lo|]. split; [exact B'|].
    intros dx dy Cl. specialize (Pr dx dy Cl). split; [|now apply Pa]. unfold free_dir. rewrite Forall_forall in *. intros x Hx. rewrite in_line_pos. apply Pr. now apply Inc. }
  set (ps := map (minimizeLines (A := ArithR)) out).
  assert (Lo : Forall returns ps) by (unfold ps; rewrite Forall_map, Forall_forall; intros r Ir; apply Min; exact Ir).
  assert (Be : Forall (beside q) ps) by (unfold ps; rewrite Forall_map, Forall_forall; intros r Ir; apply Min; exact Ir).
  split; [exact Be|]. intros dx dy n Cl Pi.
  assert (Fr : Forall (fun r => free_dir q r dx dy) ps) by (unfold ps; rewrite Forall_map, Forall_forall; intros r Ir; destruct (Min r Ir) as (_ & _ & K); apply (K dx dy Cl)).
  split; [|exact Fr].
  assert (Par : Nat.odd (cnt_all q dx dy ps) = Nat.odd n).
  { rewrite <- (sections_parity dx dy m Cl (incl_refl m) n Pi), <- (xs_perm q dx dy _ _ P).
    assert (M : forall r, In r out -> par q dx dy (minimizeLines (A := ArithR) r) = par q dx dy r) by (intros r Ir; destruct (Min r Ir) as (_ & _ & K); apply (K dx dy Cl)).
    unfold ps. clear - M. induction out as [|r out IH]; [reflexivity|]. cbn [map cnt_all flat_map]. rewrite Nat.odd_add, xs_app, <- par_cnt, <- par_xs.
    rewrite (M r) by now left. rewrite IH; [reflexivity|]. intros x Hx. apply M. now right. }
  split.
  - intros (d1 & d2 & k & F1 & Cr & O). rewrite (crossed_cnt_all _ _ _ _ _ F1 Cr) in O. rewrite <- Par, (even_odd_loops dx dy d1 d2 ps Lo Be Fr F1). exact O.
  - intros O. exists dx, dy, (cnt_all q dx dy ps). split; [exact Fr|]. split; [now apply cnt_crossed_all|]. now rewrite Par.
Qed.
End Height.
