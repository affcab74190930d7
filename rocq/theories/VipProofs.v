(** * Walls, skirts, bed positions, Analyze: any arithmetic *)
From Coq Require Import String Ascii ZArith NArith List Bool PeanoNat Lia Permutation.
From Verif Require Import Arith Prim Path Helpers Gcode GcodeSpec GcodeClaims Slicer Fill Stl Vip VipClaims FillClaims SlicerClaims FillProofs FillProofs3 HelperProofs.
Import ListNotations.
Close Scope Z_scope.
Close Scope num_scope.
Close Scope string_scope.

Section Walls.
Context {A : Arith}.

Lemma offset_loop_walls w norm : forall k p, walls (fun q => makeOffset q w norm) k p (offset_loop k p w norm).
Proof.
  induction k as [|k IH]; intros p; cbn [offset_loop]; [constructor|].
  destruct (makeOffset p w norm) as [q|] eqn:E; [|now constructor]. now constructor.
Qed.

(** MakeOffset is always tried once *)
Lemma offset_walls n w norm p : walls (fun q => makeOffset q w norm) (Z.to_nat (Z.max 1 n)) p (offset p n w norm).
Proof.
  unfold offset. destruct (makeOffset p w norm) as [q|] eqn:E; [|now constructor].
  replace (Z.to_nat (Z.max 1 n)) with (S (Z.to_nat (n - 1))) by lia.
  constructor; [exact E|]. apply offset_loop_walls.
Qed.

Lemma walls_length next n p o : walls next n p o -> length o <= n.
Proof. induction 1; cbn; lia. Qed.

Lemma last_indep {T} (l : list T) a b : l <> [] -> last l a = last l b.
Proof. induction l as [|x [|y l] IH]; intros N; [congruence|reflexivity|]. apply IH. discriminate. Qed.

Lemma wall_layer_spec n w (l : layer) : (0 < n)%Z ->
  exists offs, walls_added l (wall_layer n w l) offs /\ l_fill (wall_layer n w l) = l_fill l /\
    (l_inner (wall_layer n w l) = None -> l_inner l = None) /\
    Forall2 (fun p o => walls (fun q => if length q <? 2 then None else makeOffset q w (l_norm l)) (Z.to_nat n) p o) (l_paths l) offs.
Proof.
  intros Hn. unfold wall_layer.
  assert (G : forall ps (x : layer), l_norm x = l_norm l -> exists offs,
    let y := fold_left (wall_path n w) ps x in
    walls_added x y offs /\ l_fill y = l_fill x /\ (l_inner y = None -> l_inner x = None) /\
    Forall2 (fun p o => walls (fun q => if length q <? 2 then None else makeOffset q w (l_norm l)) (Z.to_nat n) p o) ps offs).
  { induction ps as [|p ps IH]; intros x Hx.
    - exists []. cbn. split; [|split; [reflexivity|split; [auto|constructor]]].
      repeat split; now rewrite app_nil_r.
    - cbn [fold_left]. set (x1 := wall_path n w x p).
      assert (Q : exists o, walls_added x x1 [o] /\ l_fill x1 = l_fill x /\ (l_inner x1 = None -> l_inner x = None) /\
         walls (fun q => if length q <? 2 then None else makeOffset q w (l_norm l)) (Z.to_nat n) p o).
      { unfold x1, wall_path. destruct (length p <? 2) eqn:L.
        - exists []. split; [repeat split; now rewrite app_nil_r|]. split; [reflexivity|]. split; [auto|].
          constructor. now rewrite L.
        - pose proof (offset_walls n w (l_norm l) p) as W. rewrite Z.max_r in W by lia. rewrite <- Hx in W.
          assert (W2 : walls (fun q => if length q <? 2 then None else makeOffset q w (l_norm l)) (Z.to_nat n) p (offset p n w (l_norm x))).
          { rewrite Hx in W |- *. revert W. generalize (Z.to_nat n) (offset p n w (l_norm l)). clear.
            assert (E : forall q, makeOffset q w (l_norm l) = if length q <? 2 then None else makeOffset q w (l_norm l)).
            { intros q. unfold makeOffset. now destruct (length q <? 2). }
            induction 1; [constructor|constructor; now rewrite <- E|]. econstructor; [rewrite <- E; eassumption|assumption]. }
          destruct (offset p n w (l_norm x)) as [|o os] eqn:Eo.
          + exists []. split; [repeat split; now rewrite app_nil_r|]. auto.
          + exists (o :: os). split; [|split; [reflexivity|split; [discriminate|exact W2]]].
            unfold walls_added. cbn [l_order l_norm l_paths l_middle l_inner oapp]. repeat split.
            cbn [flat_map]. now rewrite app_nil_r. }
      destruct Q as (o & (Q1 & Q2 & Q3 & Q4 & Q5) & Q6 & Q7 & Q8).
      destruct (IH x1) as (offs & (R1 & R2 & R3 & R4 & R5) & R6 & R7 & R8); [congruence|].
      exists (o :: offs). cbv zeta in *. split; [|split; [congruence|split; [auto|now constructor]]].
      repeat split; try congruence.
      + rewrite R4, Q4. cbn [flat_map]. now rewrite app_nil_r, app_assoc.
      + rewrite R5, Q5. cbn [flat_map]. now rewrite app_nil_r, app_assoc. }
  exact (G (l_paths l) l eq_refl).
Qed.
End Walls.

(** ** PrepareLayers *)
Section Prepare.
Context {A : Arith} {L : LtOK A}.

Lemma prepare_total U ls s fp ff : Forall (fun l => Forall (fun f : path => f <> []) (l_fill l)) ls ->
  exists out, prepareLayers U ls s fp ff = Ok out /\
    Forall2 (fun l l' => exists offs, walls_added l l' offs /\
       Forall2 (fun p o => length o <= Z.to_nat (addWalls s) /\
          walls (fun q => if length q <? 2 then None else makeOffset q (LineWidth (s_g s)) (l_norm l)) (Z.to_nat (addWalls s)) p o) (l_paths l) offs) ls out.
Proof.
  intros F. unfold prepareLayers.
  set (ls1 := if (addWalls s >? 0)%Z then map (wall_layer (addWalls s) (LineWidth (s_g s))) ls else ls).
  assert (Q : Forall2 (fun l l1 => exists offs, walls_added l l1 offs /\ l_fill l1 = l_fill l /\
       Forall2 (fun p o => walls (fun q => if length q <? 2 then None else makeOffset q (LineWidth (s_g s)) (l_norm l)) (Z.to_nat (addWalls s)) p o) (l_paths l) offs) ls ls1).
  { unfold ls1. destruct (Z.gtb_spec (addWalls s) 0) as [P|P].
    - clear F. induction ls as [|l ls IH]; cbn [map]; constructor; [|exact IH].
      destruct (wall_layer_spec (addWalls s) (LineWidth (s_g s)) l) as (offs & H1 & H2 & _ & H3); [lia|]. now exists offs.
    - clear F. induction ls as [|l ls IH]; constructor; [|exact IH].
      exists (map (fun _ => []) (l_paths l)). replace (Z.to_nat (addWalls s)) with 0 by lia.
      split; [|split; [reflexivity|]].
      + repeat split.
        * assert (E : flat_map (fun o : list path => removelast o) (map (fun _ => []) (l_paths l)) = []).
          { induction (l_paths l); cbn; auto. } now rewrite E, app_nil_r.
        * assert (E : flat_map (fun o : list path => match o with [] => [] | p :: _ => [last o p] end) (map (fun _ => []) (l_paths l)) = []).
          { induction (l_paths l); cbn; auto. } now rewrite E, app_nil_r.
      + induction (l_paths l); cbn; constructor; auto. constructor. }
  assert (F1 : Forall (fun l => Forall (fun f : path => f <> []) (l_fill l)) ls1).
  { clear -F Q. induction Q as [|l l1 ls ls1 (offs & _ & E & _) Q IH]; [constructor|].
    inversion F; subst. constructor; [now rewrite E|auto]. }
  destruct (fill_loop_spec U (Z.of_nat (length ls1)) fp ff s ls1 0%Z F1) as (out & E & S & _).
  exists out. split; [exact E|]. clear -Q S. revert out S.
  induction Q as [|l l1 ls ls1 (offs & Ha & _ & Hw) Q IH]; intros out S; inversion S as [|? y ? ? S1 S2]; subst; constructor; auto.
  exists offs. destruct S1 as (S1a & S1b & S1c & S1d & S1e). destruct Ha as (H1 & H2 & H3 & H4 & H5).
  split; [repeat split; congruence|].
  clear -Hw. induction Hw as [|p o ps offs W Hw IH]; constructor; [|exact IH]. split; [now apply walls_length in W|exact W].
Qed.

Lemma prepare_ok U ls s fp ff out : prepareLayers U ls s fp ff = Ok out -> length out = length ls.
Proof.
  unfold prepareLayers, fillLayers.
  assert (G : forall n i (x o : list layer), fill_loop U n i fp ff s x = Ok o -> length o = length x).
  { intros n i x. revert i. induction x as [|l x IH]; intros i o; cbn [fill_loop]; [now intros [= <-]|].
    destruct (fillLayer _ _ _ _ _ _ _); try discriminate. cbn [rbind].
    destruct (fill_loop U n (i + 1) fp ff s x) eqn:E; try discriminate. cbn [rbind]. intros [= <-]. cbn. f_equal. eauto. }
  intros H. apply G in H. rewrite H. destruct (_ >? 0)%Z; [apply map_length|reflexivity].
Qed.

End Prepare.

(** ** Nothing diverges *)
Section NoDiverge.
Context {A : Arith}.

Lemma bind_nd {S T} (r : res S) (f : S -> res T) : r <> Diverge -> (forall x, r = Ok x -> f x <> Diverge) -> rbind r f <> Diverge.
Proof. destruct r; cbn; intros H1 H2; [auto|discriminate|congruence]. Qed.
Lemma idx_nd {T} (l : list T) i : idx l i <> Diverge.
Proof. unfold idx. destruct (nth_error l i); discriminate. Qed.
Lemma idx_last_nd {T} (l : list T) : idx_last l <> Diverge.
Proof. unfold idx_last. destruct l; discriminate. Qed.
Lemma rmap_nd {S T} (f : S -> res T) l : (forall x, f x <> Diverge) -> rmap f l <> Diverge.
Proof.
  intros H. induction l as [|x l IH]; cbn [rmap]; [discriminate|].
  apply bind_nd; [apply H|]. intros y _. apply bind_nd; [exact IH|]. intros; discriminate.
Qed.

Lemma sort_nd (fs : list path) : sortFillPathes fs <> Diverge.
Proof.
  assert (N : forall (p : point) fs us j best, nearest p j us fs best <> Diverge).
  { intros p. induction fs0 as [|f r IH]; intros us j best; [destruct us; discriminate|].
    destruct us as [|[] us]; cbn [nearest]; [discriminate|apply IH|].
    apply bind_nd; [apply idx_nd|]. intros a _. apply bind_nd; [apply idx_last_nd|]. intros b _. apply IH. }
  assert (G : forall k fill out us, sort_fill_loop (A := A) k fill out us <> Diverge).
  { induction k as [|k IH]; intros fill out us; cbn [sort_fill_loop]; [discriminate|].
    apply bind_nd; [apply idx_nd|]. intros x _. apply bind_nd; [apply idx_last_nd|]. intros y _.
    apply bind_nd; [apply N|]. intros [[d sj] rv] _. apply bind_nd; [apply idx_nd|]. intros f _. apply IH. }
  unfold sortFillPathes. destruct fs as [|f0 [|f1 fs]]; try discriminate. apply G.
Qed.

Lemma prepare_nd U ls s fp ff : prepareLayers U ls s fp ff <> Diverge.
Proof.
  unfold prepareLayers, fillLayers. set (x := if (addWalls s >? 0)%Z then _ else ls).
  generalize (Z.of_nat (length x)) 0%Z. intros n. induction x as [|l r IH]; intros i; cbn [fill_loop]; [discriminate|].
  apply bind_nd.
  - unfold fillLayer. apply bind_nd; [apply sort_nd|intros; discriminate].
  - intros y _. apply bind_nd; [apply IH|intros; discriminate].
Qed.
End NoDiverge.

(** ** Skirts *)
Section Skirt.
Context {A : Arith}.

Lemma skirt_paths (l : layer) n w : n <> 0%Z ->
  l_paths (skirtPathes l n w) = flat_map (fun p => rev (offset p n w (vopp (l_norm l))) ++ [p]) (proper (l_paths l)).
Proof.
  intros Hn. unfold skirtPathes. destruct (Z.eqb_spec n 0); [contradiction|]. cbn [l_paths].
  unfold proper. induction (l_paths l) as [|p ps IH]; [reflexivity|]. cbn [flat_map filter].
  destruct (Nat.ltb_spec (length p) 2), (Nat.leb_spec 2 (length p)); try lia; [exact IH|]. cbn [flat_map]. now rewrite IH.
Qed.
End Skirt.

(** ** SliceByPlanes *)
Section Planes.
Context {A : Arith}.

Lemma cut_parts_parted U : forall ps m after out,
  cut_parts U m (rev ps) after = Ok out -> exists parts, out = parts ++ after /\ parted U m ps parts.
Proof.
  intros ps. induction ps as [|p ps IH] using rev_ind; intros m after out.
  - cbn. intros [= <-]. exists [m]. split; [reflexivity|constructor].
  - rewrite rev_unit. cbn [cut_parts]. destruct (cutMesh (u_ends U) m (ap_plane p)) as [[up down]| |] eqn:E; try discriminate.
    cbn [rbind]. intros H. apply IH in H. destruct H as (parts & -> & P).
    exists (parts ++ [up]). split; [now rewrite <- app_assoc|]. econstructor; eassumption.
Qed.

Lemma parted_length U m ps parts : parted U m ps parts -> length parts = S (length ps).
Proof. induction 1; [reflexivity|]. rewrite !app_length, IHparted. reflexivity. Qed.

Lemma parted_total U : (forall l, Permutation l (u_ends U l)) -> forall ps m after, exists out, cut_parts U m (rev ps) after = Ok out.
Proof.
  intros HU ps. induction ps as [|p ps IH] using rev_ind; intros m after; [eexists; reflexivity|].
  rewrite rev_unit. cbn [cut_parts]. destruct (cutMesh_ok (u_ends U) m (ap_plane p) HU) as (up & down & j & us & ds & -> & _).
  cbn [rbind]. apply IH.
Qed.

Lemma add_cmds (cs : list command) : forall g, g_cmds (fold_left g_add cs g) = g_cmds g ++ cs /\ g_sett (fold_left g_add cs g) = g_sett g.
Proof.
  induction cs as [|c cs IH]; intros g; cbn [fold_left]; [now rewrite app_nil_r|].
  destruct (IH (g_add g c)) as [-> ->]. cbn [g_add g_cmds g_sett]. now rewrite <- app_assoc.
Qed.

Lemma print_beds_app r t (c1 c2 : list command) :
  print_beds r t (c1 ++ c2) = print_beds r t c1 ++ print_beds (last_rotation r c1) (last_tilt t c1) c2.
Proof.
  revert r t. induction c1 as [|c c1 IH]; intros r t; [reflexivity|].
  destruct c; cbn [app print_beds last_rotation last_tilt]; now rewrite IH.
Qed.
Lemma printed_app (c1 c2 : list command) : printed (c1 ++ c2) = printed c1 ++ printed c2.
Proof. induction c1 as [|c c1 IH]; [reflexivity|]. destruct c; cbn [app printed]; now rewrite IH. Qed.
Lemma last_rotation_app r (c1 c2 : list command) : last_rotation r (c1 ++ c2) = last_rotation (last_rotation r c1) c2.
Proof. revert r. induction c1 as [|c c1 IH]; intros r; [reflexivity|]. destruct c; cbn [app last_rotation]; now rewrite IH. Qed.
Lemma last_tilt_app t (c1 c2 : list command) : last_tilt t (c1 ++ c2) = last_tilt (last_tilt t c1) c2.
Proof. revert t. induction c1 as [|c c1 IH]; intros t; [reflexivity|]. destruct c; cbn [app last_tilt]; now rewrite IH. Qed.

Definition tiltZ (b : bool) : Z := if b then 60%Z else 0%Z.

Lemma bed_cmds_spec i pl rotated r : i <> 0 \/ (r = bp_rotz pl) ->
  let '(cs, rot') := bed_cmds i pl rotated in
  printed cs = [] /\ print_beds r (tiltZ rotated) cs = [] /\ last_rotation r cs = bp_rotz pl /\ last_tilt (tiltZ rotated) cs = tiltZ (bp_tilted pl) /\ rot' = bp_tilted pl.
Proof.
  intros H. unfold bed_cmds. destruct (Nat.eqb_spec i 0) as [->|N], pl as [[] z], rotated; cbn in *;
    destruct H as [H|H]; try congruence; repeat split; auto.
Qed.

Lemma planes_loop_spec U s fp ff : forall beds parts i rotated g r g',
  length parts = length beds ->
  (i = 0 -> forall b bs, beds = b :: bs -> r = bp_rotz b) ->
  last_rotation n0 (g_cmds g) = r -> last_tilt 0 (g_cmds g) = tiltZ rotated ->
  planes_loop U s fp ff i rotated parts beds g = Ok g' ->
  exists cs, g_cmds g' = g_cmds g ++ cs /\ g_sett g' = g_sett g /\   print_beds r (tiltZ rotated) cs = map (fun b => (bp_rotz b, tiltZ (bp_tilted b))) beds /\
    last_tilt (tiltZ rotated) cs = tiltZ (last (map bp_tilted beds) rotated) /\
    exists fills, Forall2 (fun mb f => layers_of U s fp ff (bed_mesh s (snd (fst mb)) (snd mb) (fst (fst mb))) f)
                    (combine (combine parts (seq i (length parts))) beds) fills /\     printed cs = match i with
                   | 0 => match fills with f :: r => skirt_first 0 s f :: r | [] => [] end
                   | _ => fills end.
Proof.
  induction beds as [|b beds IH]; intros [|m parts] i rotated g r g' Hl Hi Hr Ht; cbn [planes_loop]; try discriminate.
  - intros [= <-]. exists []. rewrite app_nil_r. repeat split. exists []. split; [constructor|now destruct i].
  - pose proof (bed_cmds_spec i b rotated r) as B. destruct (bed_cmds i b rotated) as [cs rot'].
    destruct B as (B0 & B1 & B2 & B3 & ->). { destruct i; [right; eapply Hi; reflexivity|now left]. }
    destruct (add_cmds cs g) as [G1 G2].
    destruct (sliceByVector U _ axisZ s) as [add| |] eqn:Es; try discriminate. cbn [rbind].
    destruct (prepareLayers U add s fp ff) as [filled| |] eqn:Ep; try discriminate. cbn [rbind]. intros H.
    apply (IH parts (S i) (bp_tilted b) _ (bp_rotz b)) in H; [|cbn in Hl; lia|discriminate| |].
    + destruct H as (cs2 & K1 & K2 & K3 & K4 & fills & K5 & K6).
      exists (cs ++ LayersMoving (skirt_first i s filled) :: cs2).
      unfold g_addLayers in K1, K2. cbn [g_add g_cmds g_sett] in K1, K2. rewrite G1 in K1. rewrite G2 in K2.
      split; [rewrite K1, <- !app_assoc; reflexivity|]. split; [exact K2|].
      rewrite print_beds_app, B1, B2, B3. cbn [print_beds app map]. rewrite K3. split; [reflexivity|].
      split. { rewrite last_tilt_app, B3. cbn [last_tilt]. rewrite K4. cbn [map]. f_equal.
               clear. generalize (bp_tilted b). intros x. destruct (map bp_tilted beds) as [|y l]; [reflexivity|].
               cbn. clear. revert y. induction l; cbn; auto. }
      exists (filled :: fills). cbn [length seq combine]. split.
      * constructor; [|exact K5]. cbn [fst snd]. exists add. auto.
      * rewrite printed_app, B0. cbn [app printed]. rewrite K6. destruct i; reflexivity.
    + unfold g_addLayers. cbn [g_add g_cmds]. rewrite last_rotation_app. cbn [last_rotation]. rewrite G1, last_rotation_app, Hr. exact B2.
    + unfold g_addLayers. cbn [g_add g_cmds]. rewrite last_tilt_app. cbn [last_tilt]. rewrite G1, last_tilt_app, Ht. exact B3.
Qed.
End Planes.

(** ** Analyze *)
Section Analyze.
Context {A : Arith}.

Lemma pick_in m v : forall fails i t o, (forall x, t = Some x -> In x m) ->
  pick_triangle m v i fails t = Ok o -> forall x, o = Some x -> In x m.
Proof.
  induction fails as [|[] fails IH]; intros i t o H; cbn [pick_triangle].
  - intros [= <-]. exact H.
  - destruct (idx m i) as [tt| |] eqn:E; try discriminate. cbn [rbind]. cbv zeta.
    assert (Hin : In tt m). { unfold idx in E. destruct (nth_error m i) eqn:N; [|discriminate]. injection E as ->. now apply nth_error_In in N. }
    destruct (_ && _)%bool; [now apply IH|]. apply IH. intros x Hx. destruct t as [c|].
    + destruct (nltb _ _); injection Hx as <-; auto.
    + now injection Hx as <-.
  - now apply IH.
Qed.
Lemma pick_nd m v : forall fails i t, pick_triangle m v i fails t <> Diverge.
Proof.
  induction fails as [|[] fails IH]; intros i t; cbn [pick_triangle]; [discriminate| |apply IH].
  apply bind_nd; [apply idx_nd|]. intros x _. cbv zeta. destruct (_ && _)%bool; apply IH.
Qed.

Definition alternating (m : mesh) (ans : list aplane) : Prop :=
  forall i p, nth_error ans i = Some p ->
    (if Nat.even i then ap_tilted p = true
     else ap_tilted p = false /\ pl_n (ap_plane p) = axisZ /\ ap_rotz p = n0) /\
    exists t, In t m /\ In (pl_p (ap_plane p)) [t1 t; t2 t; t3 t].

Lemma lowest_in (t : triangle) v : In (lowest_point t v) [t1 t; t2 t; t3 t].
Proof. unfold lowest_point. cbv zeta. destruct (nltb _ _); destruct (nltb _ _); cbn; auto. Qed.

Lemma analyze_loop_spec U m ang : (forall l, Permutation l (u_ends U l)) ->
  forall fuel cur curm ans, length ans <= 6 -> alternating m ans -> ap_tilted cur = Nat.odd (length ans) ->
  (7 - length ans <= fuel -> analyze_loop fuel U m ang cur curm ans <> Diverge) /\
  forall out, analyze_loop fuel U m ang cur curm ans = Ok out -> length out <= 6 /\ alternating m out.
Proof.
  intros HU. induction fuel as [|f IH]; intros cur curm ans Hl Ha Hc.
  { split; [intros F; exfalso; lia|discriminate]. }
  cbn [analyze_loop]. destruct (Nat.ltb_spec 5 (length ans)) as [L|L]; cbn [orb].
  { split; [discriminate|]. intros out [= <-]. auto. }
  destruct (match curm with [] => true | _ => false end).
  { split; [discriminate|]. intros out [= <-]. auto. }
  pose proof (pick_nd m (pl_n (ap_plane cur)) (colorizeTriangles curm ang (pl_n (ap_plane cur))) 0 None) as D.
  destruct (pick_triangle _ _ _ _ _) as [o| |] eqn:E; [|split; discriminate|congruence]. cbn [rbind].
  destruct o as [t|]; [|split; [discriminate|intros out [= <-]; auto]].
  assert (Ht : In t m). { eapply pick_in; [|exact E|reflexivity]. discriminate. }
  set (next := next_plane cur t (lowest_point t (pl_n (ap_plane cur)))).
  destruct (cutMesh_ok (u_ends U) curm (ap_plane next) HU) as (up & down & j & us & ds & Ec & _).
  rewrite Ec. cbn [rbind].
  assert (Hp : pl_p (ap_plane next) = lowest_point t (pl_n (ap_plane cur))).
  { unfold next, next_plane. now destruct (ap_tilted cur). }
  destruct (IH next up (ans ++ [next])) as [K1 K2].
  - rewrite app_length. cbn. lia.
  - intros i p H. destruct (Nat.lt_ge_cases i (length ans)) as [L2|L2].
    + rewrite nth_error_app1 in H by exact L2. now apply Ha.
    + rewrite nth_error_app2 in H by exact L2. destruct (i - length ans) as [|k] eqn:Ei; [|destruct k; discriminate].
      cbn in H. injection H as <-. split.
      * assert (i = length ans) as -> by lia. unfold next, next_plane. rewrite Hc, <- Nat.negb_even.
        destruct (Nat.even (length ans)); cbn; auto.
      * exists t. split; [exact Ht|]. rewrite Hp. apply lowest_in.
  - rewrite app_length. cbn [length]. rewrite Nat.add_1_r, Nat.odd_succ, <- Nat.negb_odd, <- Hc.
    unfold next, next_plane. now destruct (ap_tilted cur).
  - split; [|exact K2]. intros F. apply K1. rewrite app_length. cbn [length]. lia.
Qed.
End Analyze.

(** ** Slicers that search for a failing pair *)
Section Search.
Context {A : Arith}.

Lemma first_fail_none {T} (test : layer -> layer -> res (option T)) : forall ls i,
  (forall l1 a b l2, ls = l1 ++ a :: b :: l2 -> test a b = Ok None) -> first_fail test i ls = Ok None.
Proof.
  induction ls as [|a [|b r] IH]; intros i H; [reflexivity|reflexivity|]. cbn [first_fail].
  rewrite (H [] a b r eq_refl). cbn [rbind]. apply IH. intros l1 x y l2 E. apply (H (a :: l1) x y l2). now rewrite E.
Qed.
Lemma first_fail_some {T} (test : layer -> layer -> res (option T)) : forall ls i k p,
  first_fail test i ls = Ok (Some (k, p)) -> i <= k < i + (length ls - 1) /\
    exists a b, nth_error ls (k - i) = Some a /\ nth_error ls (S (k - i)) = Some b /\ test a b = Ok (Some p) /\
      forall l1 x y l2, ls = l1 ++ x :: y :: l2 -> length l1 < k - i -> test x y = Ok None.
Proof.
  induction ls as [|a [|b r] IH]; intros i k p; [discriminate|discriminate|]. cbn [first_fail].
  destruct (test a b) as [[q|]| |] eqn:E; try discriminate; cbn [rbind].
  - intros [= <- <-]. split; [cbn; lia|]. exists a, b. rewrite Nat.sub_diag. repeat split; auto. intros. lia.
  - intros H. apply (IH (S i)) in H. destruct H as (H1 & x & y & H2 & H3 & H4 & H5). split; [cbn in *; lia|].
    exists x, y. replace (k - i) with (S (k - S i)) by lia. repeat split; auto.
    intros [|z l1] u v l2 El Hl; cbn in El.
    + now injection El as <- <- <-.
    + injection El as <- El. apply (H5 l1 u v l2 El). cbn in Hl. lia.
Qed.

Lemma rotation_panics U m s layers : (forall l1 a b l2, layers = l1 ++ a :: b :: l2 -> failRotation a b = Ok None) ->
  sliceRotation U m s layers = Panic.
Proof.
  intros H. unfold sliceRotation. destruct (calcFillPlanes m s) as [fp ff].
  rewrite first_fail_none by exact H. cbn [rbind]. rewrite firstn_all.
  pose proof (prepare_nd U layers s fp ff) as N. destruct (prepareLayers U layers s fp ff); [|reflexivity|congruence].
  cbn [rbind]. unfold layer_point, idx.
  assert (nth_error layers (length layers) = None) as -> by (apply nth_error_None; lia). reflexivity.
Qed.
Lemma bridge_panics U m s layers : (forall l1 a b l2, layers = l1 ++ a :: b :: l2 -> failExistBridge a b = Ok None) ->
  sliceBridge U m s layers = Panic.
Proof.
  intros H. unfold sliceBridge. destruct (calcFillPlanes m s) as [fp ff].
  rewrite first_fail_none by exact H. cbn [rbind]. rewrite firstn_all.
  pose proof (prepare_nd U layers s fp ff) as N. destruct (prepareLayers U layers s fp ff); [|reflexivity|congruence].
  cbn [rbind]. unfold layer_point, idx.
  assert (nth_error layers (length layers) = None) as -> by (apply nth_error_None; lia). reflexivity.
Qed.

Lemma default_alternates U s : forall fuel fp ff rot m layers g g',
  default_loop fuel U s fp ff rot m layers g = Ok g' ->
  exists cs, g_cmds g' = g_cmds g ++ cs /\ g_sett g' = g_sett g /\
    alternates (match rot with Some _ => true | None => false end) cs.
Proof.
  induction fuel as [|f IH]; intros fp ff rot m layers g g'; cbn [default_loop]; [discriminate|].
  destruct (first_fail _ _ _) as [[[k p]|]| |]; try discriminate; cbn [rbind].
  - destruct (cutMesh _ _ _) as [[up down]| |]; try discriminate. cbn [rbind].
    destruct (sliceByVector U down axisZ s) as [add| |]; try discriminate. cbn [rbind].
    destruct (prepareLayers U add s fp ff) as [fl| |]; try discriminate. cbn [rbind].
    destruct rot as [az|].
    + destruct (sliceByVector U _ axisZ s) as [ls| |]; try discriminate. cbn [rbind]. intros H.
      apply IH in H. destruct H as (cs & H1 & H2 & H3). eexists. split; [|split; [exact H2|]].
      * rewrite H1. unfold g_addLayers. cbn [g_add g_cmds]. rewrite <- !app_assoc. reflexivity.
      * cbn [app]. now constructor.
    + destruct (sliceByVector U _ axisZ s) as [ls| |]; try discriminate. cbn [rbind]. intros H.
      apply IH in H. destruct H as (cs & H1 & H2 & H3). eexists. split; [|split; [exact H2|]].
      * rewrite H1. unfold g_addLayers. cbn [g_add g_cmds]. rewrite <- !app_assoc. reflexivity.
      * cbn [app]. now constructor.
  - destruct (length layers <=? 1).
    + intros [= <-]. exists []. rewrite app_nil_r. repeat split. constructor.
    + destruct (prepareLayers U layers s fp ff) as [fl| |]; try discriminate. cbn [rbind]. intros [= <-].
      exists [LayersMoving fl]. repeat split. constructor.
Qed.

Lemma alternates_tilt b cs : alternates (A := A) b cs -> forall t r, t = (if b then 60 else 0)%Z -> (b = false -> r = n0) ->
  (last_tilt t cs = 0%Z /\ last_rotation r cs = n0) \/ (last_tilt t cs = 60%Z).
Proof.
  induction 1 as [b|b ls|ls a cs H IH|ls cs H IH]; intros t r -> Hr; cbn [last_tilt last_rotation].
  - destruct b; auto.
  - destruct b; auto.
  - apply IH; [reflexivity|discriminate].
  - apply IH; auto.
Qed.
End Search.
