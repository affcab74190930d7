(** * Properties C82-C85: the programs goosli_cutter, goosli_simplifier, goosli_colorizer, goosli_analyzer *)
From Coq Require Import String Ascii ZArith NArith Reals List Bool Lia Arith Permutation.
From Flocq Require Import Core IEEE754.BinarySingleNaN.
From Verif Require Import Arith ArithF64 Prim Path PathClaims Helpers HelperClaims Properties_Helpers Gcode GcodeSpec GcodeInstr GcodeClaims TextOK
  Slicer SlicerClaims Fill Stl StlClaims StlProofs StlProofs2 StlProofs3 Properties_Stl Vip VipText Properties_Vip Main ToolProofs Examples_Vip.
Import ListNotations.
Close Scope R_scope. Close Scope num_scope. Close Scope string_scope. Close Scope nat_scope.
Local Open Scope Z_scope.

Section P.
Variable E : elem.
Local Notation AE := (ArithF64 E).

(** a file from which exactly these triangles are loaded, whoever parses texts *)
Definition holds (file : list Z) (m : list (@triangle AE)) : Prop :=
  forall parse, loadSTL E parse file = Ok (Gives E m false).

Lemma subseq_reloaded (w up m1 : list (@triangle AE)) : subseq w up -> Forall2 (reloaded E) up m1 ->
  Forall (fun t => reloaded E t t) w -> subseq w m1.
Proof.
  intros S. revert m1. induction S as [|x a b S IH|x a b S IH]; intros m1 F W.
  - inversion F. constructor.
  - inversion F as [|? y ? m2 R F']; subst. inversion W; subst.
    assert (y = x) as -> by (eapply reloaded_fun; eassumption). apply sub_keep. now apply IH.
  - inversion F as [|? y ? m2 R F']; subst. apply sub_drop. now apply IH.
Qed.

Lemma F2_length {X Y} (R : X -> Y -> Prop) a b : Forall2 R a b -> length a = length b.
Proof. induction 1; cbn [length]; congruence. Qed.

Lemma Forall_filter {X} (Q : X -> Prop) f (l : list X) : Forall Q l -> Forall Q (filter f l).
Proof. rewrite !Forall_forall. intros H x I. apply filter_In in I. apply H. apply I. Qed.

(** ** C82 goosli_cutter *)

(** A readable model: with enough room on the disk both files are written, and they hold the two
    parts of CutMesh, vertices rounded to single precision; for a binary model the triangles
    that are wholly on one side of the plane are in the file of that side, in their order, with
    the very same coordinates. *)
Theorem C82_cutter srt parse file m (p : @plane AE) : (forall l, Permutation l (srt l)) ->
  loadSTL E parse file = Ok (Gives E m false) ->
  exists up down f1 f2,
    cutMesh srt m p = Ok (up, down) /\
    (forall k1 k2, (84 + 50 * length up <= k1)%nat -> (84 + 50 * length down <= k2)%nat ->
       cutter E srt parse k1 k2 file p = Ok (f1, f2)) /\
    (Z.of_nat (length up) < 2 ^ 32 -> exists m1, holds f1 m1 /\ Forall2 (reloaded E) up m1 /\
       (binary_size file -> subseq (filter (wholly (A := AE) true p) m) m1)) /\
    (Z.of_nat (length down) < 2 ^ 32 -> exists m2, holds f2 m2 /\ Forall2 (reloaded E) down m2 /\
       (binary_size file -> subseq (filter (wholly (A := AE) false p) m) m2)).
Proof.
  intros HS L. destruct (C37_cut_pieces (A := AE) srt m p HS) as (us & ds & cu & cd & Q & _).
  destruct (C37_whole_kept (A := AE) srt m p _ _ HS Q) as [W1 W2].
  exists (us ++ cu), (ds ++ cd), (stl_bytes E (us ++ cu)), (stl_bytes E (ds ++ cd)).
  split; [exact Q|]. split; [|split].
  - intros k1 k2 K1 K2. unfold cutter, load_or_stop. rewrite L. cbn [rbind].
    change (cutMesh srt m p) with (cutMesh (A := AE) srt m p). rewrite Q. cbn [rbind].
    rewrite (save_room E k1 _ K1). cbn [rbind]. rewrite (save_room E k2 _ K2). reflexivity.
  - intros N. exists (map (rt32 E) (us ++ cu)). split; [intros q; now apply load_bytes|]. split; [apply rounds_to_list|].
    intros B. eapply subseq_reloaded; [exact W1|apply rounds_to_list|]. apply Forall_filter.
    now apply (binary_single E parse file m false B L).
  - intros N. exists (map (rt32 E) (ds ++ cd)). split; [intros q; now apply load_bytes|]. split; [apply rounds_to_list|].
    intros B. eapply subseq_reloaded; [exact W2|apply rounds_to_list|]. apply Forall_filter.
    now apply (binary_single E parse file m false B L).
Qed.

(** a file that cannot be read stops the program *)
Theorem C82_unreadable srt parse k1 k2 file (p : @plane AE) :
  (forall m, loadSTL E parse file <> Ok (Gives E m false)) -> cutter E srt parse k1 k2 file p = Panic.
Proof.
  intros H. unfold cutter, load_or_stop. destruct (C17_total E parse file) as [r R]. rewrite R.
  destruct r as [|m [|]]; cbn [rbind]; try reflexivity. exfalso. exact (H m R).
Qed.

(** On a disk that is full before the last byte the program still succeeds, and the upper file
    is then not a binary STL file any more. *)
Theorem C82_silent_loss srt parse file m (p : @plane AE) : (forall l, Permutation l (srt l)) ->
  loadSTL E parse file = Ok (Gives E m false) ->
  exists k1 k2 f1 f2 up down, cutMesh srt m p = Ok (up, down) /\
    cutter E srt parse k1 k2 file p = Ok (f1, f2) /\
    Z.of_nat (length f1) < 84 + 50 * Z.of_nat (length up) /\
    Z.of_nat (length f2) = 84 + 50 * Z.of_nat (length down).
Proof.
  intros HS L. destruct (C37_cut_pieces (A := AE) srt m p HS) as (us & ds & cu & cd & Q & _).
  destruct (C19_silent_loss E (us ++ cu)) as (k1 & f1 & S1 & N1).
  exists k1, (84 + 50 * length (ds ++ cd))%nat, f1, (stl_bytes E (ds ++ cd)), (us ++ cu), (ds ++ cd).
  split; [exact Q|]. split; [|split].
  - unfold cutter, load_or_stop. rewrite L. cbn [rbind].
    change (cutMesh srt m p) with (cutMesh (A := AE) srt m p). rewrite Q. cbn [rbind].
    rewrite S1. cbn [rbind]. rewrite (save_room E _ _ (le_n _)). reflexivity.
  - exact N1.
  - rewrite bytes_length. rewrite Nat2Z.inj_add, Nat2Z.inj_mul. reflexivity.
Qed.

(** bytes of a file with n triangles that are written before the last flush *)
Definition blocks (n : nat) : Z := 4096 * ((83 + 50 * Z.of_nat n) / 4096).

(** It stops with an error exactly if one of the two files does not get its full blocks, and
    then misses at least one byte of it; so only the last block of a file can be lost silently. *)
Theorem C82_full_disk srt parse file m (p : @plane AE) up down k1 k2 : 
  loadSTL E parse file = Ok (Gives E m false) -> cutMesh (A := AE) srt m p = Ok (up, down) ->
  (cutter E srt parse k1 k2 file p = Panic <-> Z.of_nat k1 < blocks (length up) \/ Z.of_nat k2 < blocks (length down)) /\
  (forall f1 f2, cutter E srt parse k1 k2 file p = Ok (f1, f2) ->
     blocks (length up) <= Z.of_nat (length f1) /\ blocks (length down) <= Z.of_nat (length f2)).
Proof.
  intros L Q. destruct (C19_outcome E up) as (e1 & L1 & S1). destruct (C19_outcome E down) as (e2 & L2 & S2).
  assert (R : cutter E srt parse k1 k2 file p = if Z.of_nat k1 <? blocks (length up) then Panic
    else if Z.of_nat k2 <? blocks (length down) then Panic else Ok (firstn k1 e1, firstn k2 e2)).
  { unfold cutter, load_or_stop. rewrite L. cbn [rbind]. change (cutMesh srt m p) with (cutMesh (A := AE) srt m p). rewrite Q. cbn [rbind].
    rewrite S1, S2. reflexivity. }
  assert (B : forall n : nat, blocks n <= 84 + 50 * Z.of_nat n).
  { intros n. unfold blocks. pose proof (Z.mul_div_le (83 + 50 * Z.of_nat n) 4096 eq_refl). lia. }
  pose proof (B (length up)) as B1. pose proof (B (length down)) as B2. rewrite R.
  destruct (Z.ltb_spec (Z.of_nat k1) (blocks (length up))) as [H1|H1]; [split; [tauto|discriminate]|].
  destruct (Z.ltb_spec (Z.of_nat k2) (blocks (length down))) as [H2|H2]; [split; [tauto|discriminate]|].
  split; [split; [discriminate|lia]|]. intros f1 f2 H.
  assert (E1 : f1 = firstn k1 e1) by congruence. assert (E2 : f2 = firstn k2 e2) by congruence. subst f1 f2.
  rewrite !firstn_length. lia.
Qed.

(** ** C83 goosli_simplifier *)

Definition is_bytes (file : list Z) : Prop := Forall (fun b => 0 <= b < 256) file.

Lemma count_small file : is_bytes file -> count_field file < 2 ^ 32.
Proof.
  intros H. assert (N : forall i, 0 <= nth i file 0 < 256).
  { intros i. destruct (Nat.lt_ge_cases i (length file)) as [L|L].
    - unfold is_bytes in H. rewrite Forall_forall in H. apply H. now apply nth_In.
    - rewrite nth_overflow by exact L. lia. }
  unfold count_field. pose proof (N 80%nat). pose proof (N 81%nat). pose proof (N 82%nat). pose proof (N 83%nat). lia.
Qed.

(** A binary model that has no more than the wanted number of triangles comes out as it is, to
    the last bit of every vertex. *)
Theorem C83_small oracle parse file n : is_bytes file -> binary_size file -> count_field file <= n ->
  exists f m, (forall k, (length file <= k)%nat -> simplifier E oracle parse k file n = Ok f) /\
    length f = length file /\ holds file m /\ holds f m.
Proof.
  intros IB B N. destruct (load_binary E file B) as (m & _ & L & _).
  destruct (binary_single E parse file m false B (L parse)) as [_ S].
  pose proof (load_count E parse file m B (L parse)) as C.
  assert (LF : length file = (84 + 50 * length m)%nat) by (destruct B; lia).
  exists (stl_bytes E m), m. split; [|split; [|split]].
  - intros k K. unfold simplifier, load_or_stop. rewrite L. cbn [rbind]. unfold simplifyMesh.
    rewrite (proj2 (Z.leb_le _ _)) by lia. rewrite save_room by lia. reflexivity.
  - rewrite bytes_length. symmetry. exact LF.
  - exact L.
  - intros q. rewrite load_bytes by (rewrite C; now apply count_small). do 2 f_equal.
    clear -S. induction S as [|t m R S IH]; [reflexivity|]. cbn [map]. f_equal; [|exact IH].
    eapply reloaded_fun; [apply reloaded_rt|exact R].
Qed.

(** A larger model: the library is asked for the fraction n / count, and what it returns is
    what the file holds, up to single precision. *)
Theorem C83_large oracle parse file n m : loadSTL E parse file = Ok (Gives E m false) ->
  n < Z.of_nat (length m) ->
  let out := oracle (f64_div (f64_ofZ n) (f64_ofZ (Z.of_nat (length m))))
               (map (fun t => (@t1 AE t, @t2 AE t, @t3 AE t)) m) in
  Z.of_nat (length out) < 2 ^ 32 ->
  exists f m', (forall k, (84 + 50 * length out <= k)%nat -> simplifier E oracle parse k file n = Ok f) /\
    holds f m' /\
    Forall2 (fun v t => let '(a, b, c) := v in
      rounded_point E a (@t1 AE t) /\ rounded_point E b (@t2 AE t) /\ rounded_point E c (@t3 AE t) /\
      @t_n AE t = @cross AE (@vectorTo AE (@t1 AE t) (@t2 AE t)) (@vectorTo AE (@t1 AE t) (@t3 AE t))) out m'.
Proof.
  intros L N out K.
  set (ts := map (fun '(a, b, c) => @newTriangle AE a b c) out).
  assert (LT : length ts = length out) by apply map_length.
  exists (stl_bytes E ts), (map (rt32 E) ts). split; [|split].
  - intros k Hk. unfold simplifier, load_or_stop. rewrite L. cbn [rbind].
    assert (SM : simplifyMesh (A := AE) oracle (Some m) n = Some ts).
    { unfold simplifyMesh. cbv beta iota. rewrite (proj2 (Z.leb_gt _ _)) by exact N. reflexivity. }
    match goal with |- match ?x with _ => _ end = _ => change x with (simplifyMesh (A := AE) oracle (Some m) n) end.
    rewrite SM. rewrite (save_room E k ts) by (unfold ts; rewrite map_length; exact Hk). reflexivity.
  - intros q. apply load_bytes. unfold ts; rewrite map_length; exact K.
  - unfold ts. clear. induction out as [|[[a b] c] out IH]; cbn [map]; constructor; [|exact IH].
    destruct (reloaded_rt E (@newTriangle AE a b c)) as (R1 & R2 & R3 & R4). auto.
Qed.

(** The same for the full disk. *)
Theorem C83_full_disk oracle parse file n m k ts : loadSTL E parse file = Ok (Gives E m false) ->
  simplifyMesh (A := AE) oracle (Some m) n = Some ts ->
  (simplifier E oracle parse k file n = Panic <-> Z.of_nat k < blocks (length ts)) /\
  (forall f, simplifier E oracle parse k file n = Ok f -> blocks (length ts) <= Z.of_nat (length f)).
Proof.
  intros L Q. destruct (C19_outcome E ts) as (e1 & L1 & S1).
  assert (R : simplifier E oracle parse k file n = if Z.of_nat k <? blocks (length ts) then Panic else Ok (firstn k e1)).
  { unfold simplifier, load_or_stop. rewrite L. cbn [rbind].
    match goal with |- match ?x with _ => _ end = _ => change x with (simplifyMesh (A := AE) oracle (Some m) n) end.
    rewrite Q, S1. reflexivity. }
  pose proof (Z.mul_div_le (83 + 50 * Z.of_nat (length ts)) 4096 eq_refl) as B. change (4096 * ((83 + 50 * Z.of_nat (length ts)) / 4096)) with (blocks (length ts)) in B.
  rewrite R. destruct (Z.ltb_spec (Z.of_nat k) (blocks (length ts))) as [H|H]; [split; [tauto|discriminate]|].
  split; [split; [discriminate|lia]|]. intros f Hf. assert (E1 : f = firstn k e1) by congruence. subst f. rewrite firstn_length. lia.
Qed.

(** ** C84 goosli_colorizer *)

(** One byte for every triangle, 1 exactly for the triangles of FilterTrianglesByColor. *)
Theorem C84_bytes parse file (ang : f64) (v : @vector AE) m : loadSTL E parse file = Ok (Gives E m false) ->
  exists out, colorizer E parse file ang v = Ok out /\ length out = length m /\
    Forall (fun b => b = 0 \/ b = 1) out /\
    map snd (filter (fun bt => fst bt =? 1) (combine out m)) = filterTrianglesByColor (A := AE) m ang v.
Proof.
  intros L. unfold colorizer, load_or_stop. rewrite L. cbn [rbind]. eexists. split; [reflexivity|].
  unfold filterTrianglesByColor, colorizeTriangles. rewrite !map_map. split; [apply map_length|]. split.
  - apply Forall_forall. intros b I. apply in_map_iff in I. destruct I as (t & <- & _). destruct (nltb _ _); auto.
  - clear L. induction m as [|t m IH]; [reflexivity|]. cbn [map combine filter fst].
    destruct (nltb _ _); [change (1 =? 1) with true|change (0 =? 1) with false]; cbn [map snd]; [f_equal|]; exact IH.
Qed.

(** The byte of a triangle of a binary file depends on its nine coordinates only: the header,
    the stored normals, the attribute words and the other triangles are not looked at. *)
Theorem C84_local parse file file' ang v i out out' : binary_size file -> binary_size file' ->
  (forall j, (12 <= j < 48)%nat -> nth (84 + 50 * i + j) file 0 = nth (84 + 50 * i + j) file' 0) ->
  colorizer E parse file ang v = Ok out -> colorizer E parse file' ang v = Ok out' ->
  (i < length out)%nat -> (i < length out')%nat -> nth i out 0 = nth i out' 0.
Proof.
  intros B B' H C C'.
  assert (G : forall file out, binary_size file -> colorizer E parse file ang v = Ok out -> (i < length out)%nat ->
    exists b t, readTriangle E b i = Ok t /\ nth i out 0 = (if nltb (@angle AE (@t_n AE t) (vopp v)) (@nsub AE (nofZ 90) ang) then 1 else 0) /\
      forall k, (k < 50)%nat -> nth (i * 50 + k) b 0 = nth (84 + 50 * i + k) file 0).
  { clear. intros file out B. destruct (load_binary E file B) as (m & _ & L & _).
    unfold colorizer, load_or_stop. rewrite L. cbn [rbind]. intros [= <-] I.
    unfold colorizeTriangles in *. rewrite map_map in *. rewrite map_length in I.
    destruct (load_nth E parse file m i B (L parse) I) as (b & t & R & T & K).
    exists b, t. split; [exact R|]. split; [|exact K].
    apply nth_error_nth. rewrite nth_error_map, T. reflexivity. }
  intros I I'. destruct (G file out B C I) as (b & t & R & -> & K).
  destruct (G file' out' B' C' I') as (b' & t' & R' & -> & K').
  assert (t = t') as <-; [|reflexivity].
  eapply readTriangle_same; [|exact R|exact R']. intros k Hk. rewrite K, K' by lia. now apply H.
Qed.

(** ** C85 goosli_analyzer *)

(** What the analyzer writes can be read by goosli: one plane for each, at most six, tilted and
    level in turn, beginning with a tilted one. *)
Theorem C85_readable fuel (U : @env AE) (parse : list Z -> @num AE) file (origin : @vector AE) ang out : legal U -> (7 <= fuel)%nat ->
  analyzer E fuel U parse file origin ang = Ok out ->
  exists qs, readPlanes parse (Some out) = Ok qs /\ (length qs <= 6)%nat /\
    forall i (q : @aplane AE), nth_error qs i = Some q -> ap_tilted q = Nat.even i /\ pl_n (ap_plane q) = read_normal (ap_tilted q) (ap_rotz q).
Proof.
  intros HU HF. unfold analyzer, load_or_stop.
  destruct (loadSTL E parse file) as [[|m [|]]| |]; cbn [rbind]; try discriminate.
  destruct (analyze fuel U (m_shift m origin) ang) as [ps| |] eqn:Q; cbn [rbind]; try discriminate.
  intros [= <-].
  destruct (C53_analyze AE U (m_shift m origin) ang fuel) as [_ S]; [apply HU|exact HF|].
  destruct (S ps Q) as [S1 S2].
  destruct (C55_file AE parse ps) as (qs & R & F).
  { apply Forall_forall. intros p _. apply plane_text_short. }
  exists qs. split; [exact R|]. split; [apply F2_length in F; exact (eq_ind _ (fun n => (n <= 6)%nat) S1 _ F)|].
  intros i q I.
  assert (X : forall (a b : list (@aplane AE)) i (q : @aplane AE), Forall2 (fun p q => ap_tilted q = ap_tilted p /\ pl_n (ap_plane q) = read_normal (ap_tilted q) (ap_rotz q)) a b ->
     nth_error b i = Some q -> exists p, nth_error a i = Some p /\ ap_tilted q = ap_tilted p /\ pl_n (ap_plane q) = read_normal (ap_tilted q) (ap_rotz q)).
  { intros a b j r G. revert j. induction G as [|x y a b G1 G IH]; intros [|j]; cbn [nth_error]; try discriminate.
    - intros [= <-]. exists x. auto.
    - apply IH. }
  destruct (X ps qs i q) as (p & P1 & P2 & P3); [|exact I|].
  { eapply Forall2_impl; [|exact F]. cbv zeta. intros x y (G1 & _ & _ & _ & _ & G2). auto. }
  split; [|exact P3]. rewrite P2. destruct (S2 i p P1) as [T _]. destruct (Nat.even i); [exact T|apply T].
Qed.

(** So a model sliced with these planes leaves the bed tilted exactly if their number is odd. *)
Theorem C85_bed fuel (U : @env AE) (parse : list Z -> @num AE) file (origin : @vector AE) ang out qs m (s : @settings AE) g t m0 : legal U -> (7 <= fuel)%nat ->
  analyzer E fuel U parse file origin ang = Ok out -> readPlanes parse (Some out) = Ok qs ->
  sliceByPlanes U m s qs = Ok g -> toOutput g = Ok t ->
  Forall (fun p => vfin (V (ap_rotz p))) qs ->
  m_tool m0 = 0%Z -> m_disp m0 1 = VFin 0 -> m_disp m0 2 = VFin 0 ->
  exists is, read_gcode t = Some is /\
    m_disp (run m0 is) 2 = VFin (if Nat.odd (length qs) then 60000 else 0).
Proof.
  intros HU HF HA HR HS HO F M0 M1 M2.
  destruct (C85_readable fuel U parse file origin ang out HU HF HA) as (qs' & R & _ & AL).
  rewrite HR in R. injection R as <-.
  destruct (C52_left_tilted AE (TextOK_F64 E) U m s qs g t m0 HS HO F M0 M1 M2) as (is & RD & B).
  exists is. split; [exact RD|]. rewrite B. f_equal.
  destruct qs as [|q qs _] using rev_ind; [reflexivity|]. rewrite rev_unit, app_length. cbn [length].
  destruct (AL (length qs) q) as [T _].
  { rewrite nth_error_app2 by lia. now rewrite Nat.sub_diag. }
  rewrite T, Nat.add_1_r, Nat.odd_succ. reflexivity.
Qed.
End P.

(** ** Examples *)

(** a plate on the bed and a drop above it *)
Definition parse3 (w : list Z) : f64 := match read_val (txt_of w) with Some (VFin z) => f64_lit z 1000 | _ => B754_nan end.
Definition plate : list (@triangle A1) := repeat (newTriangle (pt 0 0 0) (pt 0 90 0) (pt 90 0 0)) 20 ++
  [newTriangle (pt 120 20 520) (pt 180 30 530) (pt 130 90 520); newTriangle (pt 140 50 500) (pt 180 30 530) (pt 120 20 520);
   newTriangle (pt 140 50 500) (pt 130 90 520) (pt 180 30 530); newTriangle (pt 140 50 500) (pt 120 20 520) (pt 130 90 520)].
Definition plate_file := stl_bytes elem1 plate.

Example ex_plate : is_bytes plate_file /\ binary_size plate_file /\ count_field plate_file = 24 /\
  forall parse, loadSTL elem1 parse plate_file = Ok (Gives elem1 (map (rt32 elem1) plate) false).
Proof.
  split; [|split; [|split]].
  - assert (H : forallb (fun b => (0 <=? b) && (b <? 256))%bool plate_file = true) by (vm_compute; reflexivity).
    apply Forall_forall. rewrite forallb_forall in H. intros b I. apply H, andb_true_iff in I. lia.
  - split; vm_compute; [discriminate|reflexivity].
  - vm_compute. reflexivity.
  - intros parse. apply load_bytes. reflexivity.
Qed.

(** C82: cut at 51 mm: two files, of more than the whole triangles *)
Definition cut51 : @plane A1 := Pl (pt 0 0 510) axisZ.
Example ex_cutter : match cutter elem1 (u_ends (env0 (A := A1))) (fun _ => B754_nan) 2000 2000 plate_file cut51 with
  | Ok (f1, f2) => (count_field f1, count_field f2)
  | _ => (0, 0)
  end = (9, 25).
Proof. vm_compute. reflexivity. Qed.

(** C84: the three sides of the drop and the plate are marked *)
Example ex_colorizer : colorizer elem1 (fun _ => B754_nan) plate_file (f64_ofZ 30) axisZ = Ok (repeat 1 20 ++ [0; 1; 1; 1]).
Proof. vm_compute. reflexivity. Qed.

(** C85: one plane, and it can be sliced by it *)
Example ex_analyzer : match analyzer elem1 7 (env0 (A := A1)) parse3 plate_file (V3 (A := A1) n0 n0 n0) (f64_ofZ 30) with
  | Ok out =>
      match readPlanes (A := A1) parse3 (Some out) with
      | Ok qs => Nat.eqb (length qs) 1 && forallb (fun q : @aplane A1 => match V (ap_rotz q) with VFin _ => true | _ => false end) qs &&
                 match sliceByPlanes env0 plate s1 qs with Ok g => match toOutput g with Ok _ => true | _ => false end | _ => false end
      | _ => false
      end
  | _ => false
  end%bool = true.
Proof. vm_compute. reflexivity. Qed.

Print Assumptions C82_cutter.
Print Assumptions C82_unreadable.
Print Assumptions C82_silent_loss.
Print Assumptions C82_full_disk.
Print Assumptions C83_small.
Print Assumptions C83_large.
Print Assumptions C83_full_disk.
Print Assumptions C84_bytes.
Print Assumptions C84_local.
Print Assumptions C85_readable.
Print Assumptions C85_bed.
