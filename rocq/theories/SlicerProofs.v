(** * Slicing: the sweep, layer heights, trimming (C22-C25) *)
From Coq Require Import ZArith Reals Lra Lia List Bool Permutation Sorted PeanoNat.
From Flocq Require Import Core.Raux IEEE754.BinarySingleNaN.
From Verif Require Import Arith ArithR ArithF64 Prim Path PathClaims JoinProofs GeomSpec GeomProofs MeshProofs
  Helpers HelperProofs Slicer Properties_Path SlicerClaims Properties_Geom.
Import ListNotations.
Close Scope R_scope.
Close Scope Z_scope.
Close Scope num_scope.

(** ** Order laws *)
#[global] Instance OrdOK_R : OrdOK ArithR.
Proof.
  constructor; unfold plain; cbn [num nleb nltb ArithR]; intros; rewrite ?Rleb_true, ?Rltb_true, ?Rltb_false, ?Rleb_false in *; lra.
Qed.

Lemma Bleb_iff (x y : f64) : Bleb x y = true <->
  (x = B754_infinity true /\ is_nan y = false) \/ (y = B754_infinity false /\ is_nan x = false) \/
  (is_finite x = true /\ is_finite y = true /\ (B2R x <= B2R y)%R).
Proof.
  destruct (is_finite x) eqn:Fx, (is_finite y) eqn:Fy.
  - rewrite le64 by assumption. split; [auto|]. intros [(-> & _)|[(-> & _)|(_ & _ & H)]]; [discriminate|discriminate|exact H].
  - destruct y as [?|[|]| |]; try discriminate Fy; destruct x as [?|[|]| |[|]]; try discriminate Fx; cbn; split; auto;
      try discriminate; intros [(H & _)|[(H & _)|(_ & H & _)]]; discriminate.
  - destruct x as [?|[|]| |]; try discriminate Fx; destruct y as [?|[|]| |[|]]; try discriminate Fy; cbn; split; auto;
      try discriminate; intros [(H & K)|[(H & K)|(H & _)]]; discriminate.
  - destruct x as [?|[|]| |]; try discriminate Fx; destruct y as [?|[|]| |]; try discriminate Fy; cbn; split; auto;
      try discriminate; intros [(H & K)|[(H & K)|(H & _)]]; discriminate.
Qed.

Lemma Bleb_nan (x : f64) : Bleb x x = true <-> is_nan x = false.
Proof.
  rewrite Bleb_iff. split.
  - intros [(-> & _)|[(-> & _)|(H & _)]]; try reflexivity. now destruct x.
  - destruct x as [?|[|]| |]; cbn; auto; try discriminate; intros _; right; right; repeat split; lra.
Qed.

#[global] Instance OrdOK_F64 E : OrdOK (ArithF64 E).
Proof.
  constructor; unfold plain; cbn [num nleb nltb ArithF64].
  - intros x y z. rewrite !Bleb_iff. intros [(-> & H)|[(-> & H)|(H1 & H2 & H3)]].
    + intros [(-> & K)|[(-> & K)|(K1 & K2 & K3)]]; left; split; auto. now destruct z.
    + intros [(K & _)|[(-> & K)|(K & _)]]; [discriminate| |discriminate]. right; left; auto.
    + intros [(-> & K)|[(-> & K)|(K1 & K2 & K3)]]; [discriminate H2| |].
      * right; left. split; auto. now destruct x.
      * right; right. repeat split; auto. lra.
  - intros x y. rewrite !Bleb_nan. intros Nx Ny.
    destruct (is_finite x) eqn:Fx, (is_finite y) eqn:Fy.
    + rewrite Bltb_correct by assumption. intros H. apply Bleb_iff. right; right. repeat split; auto.
      destruct (Rlt_bool_spec (B2R x) (B2R y)); [discriminate|assumption].
    + destruct y as [?|[|]| |]; try discriminate; destruct x as [?|[|]| |[|]]; try discriminate; cbn; auto; discriminate.
    + destruct x as [?|[|]| |]; try discriminate; destruct y as [?|[|]| |[|]]; try discriminate; cbn; auto; discriminate.
    + destruct x as [?|[|]| |]; try discriminate; destruct y as [?|[|]| |]; try discriminate; cbn; auto; discriminate.
  - intros x y H. destruct (is_finite x) eqn:Fx, (is_finite y) eqn:Fy.
    + rewrite Bltb_correct in H by assumption. apply Bleb_iff. right; right. repeat split; auto.
      destruct (Rlt_bool_spec (B2R x) (B2R y)); [lra|discriminate].
    + destruct y as [?|[|]| |]; try discriminate; destruct x as [?|[|]| |[|]]; try discriminate; cbn; auto; discriminate.
    + destruct x as [?|[|]| |]; try discriminate; destruct y as [?|[|]| |[|]]; try discriminate; cbn; auto; discriminate.
    + destruct x as [?|[|]| |]; try discriminate; destruct y as [?|[|]| |]; try discriminate; cbn; auto; discriminate.
  - intros x y H. destruct (is_finite x) eqn:Fx, (is_finite y) eqn:Fy.
    + rewrite Bltb_correct in H by assumption. rewrite Bleb_correct by assumption.
      destruct (Rlt_bool_spec (B2R x) (B2R y)); [|discriminate]. apply Rle_bool_false. assumption.
    + destruct y as [?|[|]| |]; try discriminate; destruct x as [?|[|]| |[|]]; try discriminate; cbn; auto; discriminate.
    + destruct x as [?|[|]| |]; try discriminate; destruct y as [?|[|]| |[|]]; try discriminate; cbn; auto; discriminate.
    + destruct x as [?|[|]| |]; try discriminate; destruct y as [?|[|]| |]; try discriminate; cbn; auto; discriminate.
Qed.

(** ** Insertion sort is legal *)
Section Sort.
Context {A : Arith} {O : OrdOK A} {T : Type} (key : T -> num).
Lemma ins_perm x l : Permutation (x :: l) (ins key x l).
Proof. induction l as [|y l IH]; cbn [ins]; [auto|]. destruct (nltb (key y) (key x)); [|auto]. rewrite perm_swap. now constructor. Qed.
Lemma isort_perm l : Permutation l (isort key l).
Proof. induction l as [|x l IH]; cbn; [auto|]. rewrite <- ins_perm. now constructor. Qed.
Definition asc (a b : T) : Prop := nltb (key b) (key a) = false.
Lemma asc_le a b : plain (key a) -> plain (key b) -> (asc a b <-> nleb (key a) (key b) = true).
Proof.
  intros Pa Pb. unfold asc. split; [now apply ord_total|]. intros H. destruct (nltb (key b) (key a)) eqn:E; [|reflexivity].
  apply ord_asym in E. congruence.
Qed.
Lemma ins_sorted x l : plain (key x) -> Forall (fun t => plain (key t)) l -> StronglySorted asc l -> StronglySorted asc (ins key x l).
Proof.
  intros Px Pl S. induction S as [|y l S IH F]; cbn [ins]; [repeat constructor|]. inversion Pl as [|? ? Py Pl']; subst.
  destruct (nltb (key y) (key x)) eqn:E.
  - constructor; [auto|]. apply Forall_forall. intros z Hz. apply (Permutation_in z (Permutation_sym (ins_perm x l))) in Hz.
    destruct Hz as [<-|Hz]; [apply asc_le; auto; now apply ord_lt|]. rewrite Forall_forall in F. auto.
  - constructor; [constructor; auto|]. constructor; [exact E|]. apply Forall_forall. intros z Hz. rewrite Forall_forall in F, Pl'.
    apply asc_le; auto. apply ord_trans with (key y); [now apply ord_total|]. apply asc_le; auto.
Qed.
Lemma isort_sorted l : Forall (fun t => plain (key t)) l -> StronglySorted asc (isort key l).
Proof.
  induction 1 as [|x l Px F IH]; cbn; [constructor|]. apply ins_sorted; auto.
  apply Forall_forall. intros y Hy. rewrite Forall_forall in F. apply F. eapply Permutation_in; [apply Permutation_sym, isort_perm|exact Hy].
Qed.
End Sort.

Lemma env0_legal {A : Arith} {O : OrdOK A} : legal env0.
Proof.
  constructor; cbn [env0 u_asc u_desc u_ends u_arrive u_byX u_byY]; intros.
  - apply isort_perm.
  - now apply isort_sorted.
  - rewrite <- Permutation_rev. apply isort_perm.
  - apply go_sort_perm.
  - apply Permutation_rev.
  - apply isort_perm.
  - now apply isort_sorted.
  - apply isort_perm.
  - now apply isort_sorted.
Qed.

(** ** Lists *)
Section Pruned.
Context {T : Type} (D : T -> Prop).
Lemma pruned_refl l : pruned D l l.
Proof. induction l; constructor; auto. Qed.
Lemma pruned_app a b a' b' : pruned D a a' -> pruned D b b' -> pruned D (a ++ b) (a' ++ b').
Proof. induction 1; cbn; intros; auto; constructor; auto. Qed.
Lemma pruned_filter (f : T -> bool) l js : (forall x, f x = false -> D x) -> pruned D l js -> pruned D l (filter f js).
Proof.
  intros H. induction 1 as [|x l js P IH|x l js Dx P IH]; cbn [filter]; [constructor| |constructor; auto].
  destruct (f x) eqn:E; constructor; auto.
Qed.
Lemma pruned_imp (D' : T -> Prop) l js : (forall x, D x -> D' x) -> pruned D l js -> pruned D' l js.
Proof. intros H. induction 1; constructor; auto. Qed.
Lemma pruned_sections {S} (f : T -> list S) l js : (forall x, D x -> f x = []) -> pruned D l js -> flat_map f js = flat_map f l.
Proof.
  intros H. induction 1 as [|x l js P IH|x l js Dx P IH]; cbn [flat_map]; [reflexivity|congruence|].
  rewrite (H x Dx). exact IH.
Qed.
End Pruned.

Lemma flat_map_filter {T S} (f : T -> list S) (g : T -> bool) l :
  (forall x, In x l -> g x = false -> f x = []) -> flat_map f (filter g l) = flat_map f l.
Proof.
  induction l as [|x l IH]; intros H; [reflexivity|]. cbn [filter flat_map]. destruct (g x) eqn:E.
  - cbn [flat_map]. rewrite IH; [reflexivity|]. intros; apply H; cbn; auto.
  - rewrite (H x (or_introl eq_refl) E), IH; [reflexivity|]. intros; apply H; cbn; auto.
Qed.

Lemma flat_map_perm {T S} (f : T -> list S) l l' : Permutation l l' -> Permutation (flat_map f l) (flat_map f l').
Proof.
  induction 1; cbn [flat_map]; auto.
  - now apply Permutation_app_head.
  - rewrite !app_assoc. apply Permutation_app_tail, Permutation_app_comm.
  - etransitivity; eassumption.
Qed.

(** ** The sweep *)
Section Sweep.
Context {A : Arith} {O : OrdOK A}.
Variables Z sh : vector.

Definition at_step (curP : point) (m : nat) : point := Nat.iter m (fun p => pshift p sh) curP.
Definition hz (p : point) : num := dot (p2v p) Z.

Lemma at_step_S curP m : at_step (pshift curP sh) m = at_step curP (S m).
Proof.
  induction m as [|m IH]; [reflexivity|].
  change (at_step (pshift curP sh) (S m)) with (pshift (at_step (pshift curP sh) m) sh). now rewrite IH.
Qed.

Lemma reached_app z ts : let '(a, b) := reached Z z ts in
  ts = a ++ b /\ Forall (fun t => nleb (t_minZ t Z) z = true) a /\
  match b with [] => True | t :: _ => nleb (t_minZ t Z) z = false end.
Proof.
  induction ts as [|t ts IH]; cbn [reached]; [auto|]. destruct (nleb (t_minZ t Z) z) eqn:E.
  - destruct (reached Z z ts) as [a b]. destruct IH as (-> & H & K). auto.
  - auto.
Qed.
Lemma reached_pre z pre ts : Forall (fun t => nleb (t_minZ t Z) z = true) pre ->
  reached Z z (pre ++ ts) = (pre ++ fst (reached Z z ts), snd (reached Z z ts)).
Proof.
  induction 1 as [|t pre H F IH]; cbn [app reached]; [now destruct (reached Z z ts)|].
  now rewrite H, IH.
Qed.

Definition lower (a b : triangle) : Prop := nltb (t_minZ b Z) (t_minZ a Z) = false.

Lemma sorted_rest z ts : Forall (fun t => plain (t_minZ t Z)) ts -> StronglySorted lower ts ->
  let '(a, b) := reached Z z ts in
  ts = a ++ b /\ Forall (fun t => nleb (t_minZ t Z) z = true) a /\ Forall (fun t => nleb (t_minZ t Z) z = false) b.
Proof.
  intros P S. pose proof (reached_app z ts) as R. destruct (reached Z z ts) as [a b].
  destruct R as (-> & F & H). split; [reflexivity|]. split; [exact F|].
  destruct b as [|t b]; [constructor|].
  apply Forall_app in P. destruct P as [_ P].
  assert (S2 : StronglySorted lower (t :: b)).
  { clear -S. induction a as [|x a IH]; [exact S|]. apply IH. now inversion S. }
  inversion S2 as [|? ? S3 F3]; subst. constructor; [exact H|].
  inversion P as [|? ? P1 P2]; subst. rewrite Forall_forall in *. intros x Hx.
  destruct (nleb (t_minZ x Z) z) eqn:E; [|reflexivity].
  rewrite <- H. symmetry. apply ord_trans with (t_minZ x Z); [|exact E]. apply ord_total; auto. now apply F3.
Qed.

Lemma sorted_suffix (a b : list triangle) : StronglySorted lower (a ++ b) -> StronglySorted lower b.
Proof. induction a as [|x a IH]; cbn; [auto|]. intros H. apply IH. now inversion H. Qed.

Definition below (z : num) (t : triangle) : Prop := nleb z (t_maxZ t Z) = false.

Theorem sweep_handed : forall k i curP done active pre srt,
  (forall m, (S m < k)%nat -> nleb (hz (at_step curP m)) (hz (at_step curP (S m))) = true) ->
  Forall (fun t => nleb (t_minZ t Z) (hz curP) = true) done ->
  pruned (below (hz curP)) done active ->
  Forall (fun t => nleb (t_minZ t Z) (hz curP) = true) pre ->
  Forall (fun t => plain (t_minZ t Z)) srt -> StronglySorted lower srt ->
  forall n j, nth_error (sweep Z sh k i curP active (pre ++ srt)) n = Some j ->
    pruned (below (hz (at_step curP n)))
      (filter (fun t => nleb (t_minZ t Z) (hz (at_step curP n))) (done ++ pre ++ srt)) (j_triangles j).
Proof.
  induction k as [|k IH]; intros i curP done active pre srt Hm Hd Hp Hpre Hpl Hs n j; cbn [sweep].
  - destruct n; discriminate.
  - fold (hz curP). rewrite reached_pre by exact Hpre.
    pose proof (sorted_rest (hz curP) srt Hpl Hs) as R. destruct (reached Z (hz curP) srt) as [a b]. cbn [fst snd].
    destruct R as (-> & Ha & Hb).
    assert (P1 : pruned (below (hz curP)) (done ++ pre ++ a)
      (filter (fun t => nleb (hz curP) (t_maxZ t Z)) active ++ pre ++ a)).
    { apply pruned_app; [|apply pruned_refl]. apply pruned_filter; [|exact Hp]. intros x Hx. exact Hx. }
    assert (Hd' : Forall (fun t => nleb (t_minZ t Z) (hz curP) = true) (done ++ pre ++ a)) by (rewrite !Forall_app; auto).
    destruct n as [|n]; cbn [nth_error].
    + intros [= <-]. cbn [j_triangles at_step Nat.iter].
      change (at_step curP 0) with curP.
      replace (done ++ pre ++ a ++ b) with ((done ++ pre ++ a) ++ b) by now rewrite <- !app_assoc.
      rewrite filter_app.
      assert (filter (fun t => nleb (t_minZ t Z) (hz curP)) (done ++ pre ++ a) = done ++ pre ++ a) as ->.
      { clear -Hd'. induction Hd' as [|x l H F IHl]; [reflexivity|]. cbn [filter]. now rewrite H, IHl. }
      assert (filter (fun t => nleb (t_minZ t Z) (hz curP)) b = []) as ->.
      { clear -Hb. induction Hb as [|x l H F IHl]; [reflexivity|]. cbn [filter]. now rewrite H. }
      now rewrite app_nil_r.
    + intros Hj. destruct k as [|k'].
      { destruct n; discriminate. }
      assert (M0 : nleb (hz curP) (hz (pshift curP sh)) = true) by (apply (Hm 0%nat); lia).
      assert (Up : forall t, nleb (t_minZ t Z) (hz curP) = true -> nleb (t_minZ t Z) (hz (pshift curP sh)) = true).
      { intros t Ht. eapply ord_trans; eassumption. }
      specialize (IH (i + 1)%Z (pshift curP sh) (done ++ pre ++ a)
        (filter (fun t => nleb (hz curP) (t_maxZ t Z)) active ++ pre ++ a) [] b).
      cbn [app] in IH. rewrite <- at_step_S.
      replace (done ++ pre ++ a ++ b) with ((done ++ pre ++ a) ++ b) by now rewrite <- !app_assoc.
      apply IH; auto.
      * intros m Hk. rewrite !at_step_S. apply Hm. lia.
      * eapply Forall_impl; [|exact Hd']. exact Up.
      * eapply pruned_imp; [|exact P1]. intros t. unfold below. intros Ht.
        destruct (nleb (hz (pshift curP sh)) (t_maxZ t Z)) eqn:E; [|reflexivity].
        rewrite <- Ht. symmetry. eapply ord_trans; eassumption.
      * apply Forall_app in Hpl. tauto.
      * eapply sorted_suffix, Hs.
Qed.

Lemma sweep_shape : forall k i curP active todo,
  length (sweep Z sh k i curP active todo) = k /\
  forall n j, nth_error (sweep Z sh k i curP active todo) n = Some j ->
    j_order j = (i + Z.of_nat n)%Z /\ j_plane j = Pl (at_step curP n) Z.
Proof.
  induction k as [|k IH]; intros i curP active todo; cbn [sweep]; [split; [reflexivity|intros [|]; discriminate]|].
  destruct (reached Z (dot (p2v curP) Z) todo) as [a b]. cbn [length].
  destruct (IH (i + 1)%Z (pshift curP sh) (filter (fun t => nleb (dot (p2v curP) Z) (t_maxZ t Z)) active ++ a) b) as [L H].
  split; [now rewrite L|]. intros [|n] j; cbn [nth_error].
  - intros [= <-]. cbn. split; [lia|reflexivity].
  - intros Hj. destruct (H n j Hj) as [H1 H2]. rewrite H1, H2, at_step_S. split; [lia|reflexivity].
Qed.
End Sweep.

(** ** Workers and layers *)
Section Layers.
Context {A : Arith}.

Lemma rmap_ok {T U} (f : T -> res U) l : (forall x, In x l -> exists y, f x = Ok y) ->
  exists ys, rmap f l = Ok ys /\ Forall2 (fun x y => f x = Ok y) l ys.
Proof.
  induction l as [|x l IH]; intros H; cbn [rmap]; [exists []; split; [reflexivity|constructor]|].
  destruct (H x (or_introl eq_refl)) as (y & E). destruct IH as (ys & E2 & F); [intros; apply H; cbn; auto|].
  rewrite E, E2. cbn. exists (y :: ys). split; [reflexivity|now constructor].
Qed.

Lemma sections_nonempty p m : Forall (fun q : path => q <> []) (sections p m).
Proof.
  induction m as [|t m IH]; [constructor|]. unfold sections in *. cbn [flat_map]. apply Forall_app. split; [|exact IH].
  destruct (intersectTriangle p t); repeat constructor. discriminate.
Qed.

Lemma worker_ok U j : (forall l, Permutation l (u_ends U l)) ->
  exists joined, joinPaths3AndMinimize (u_ends U) (sections (j_plane j) (j_triangles j)) = Ok joined /\
    slicingWorker U j = Ok (Layer_ (j_order j) (pl_n (j_plane j)) joined [] None []).
Proof.
  intros H. destruct (join_pairs (u_ends U) (sections (j_plane j) (j_triangles j)) H (sections_nonempty _ _)) as (o & E).
  exists o. split; [exact E|]. unfold slicingWorker. fold (sections (j_plane j) (j_triangles j)). rewrite E. reflexivity.
Qed.

(** sorting by Order *)
Definition sorted_by (ls : list layer) : Prop := StronglySorted (fun a b => (l_order a < l_order b)%Z) ls.

Lemma insert_perm l ls : Permutation (l :: ls) (insert_layer l ls).
Proof.
  induction ls as [|x ls IH]; cbn [insert_layer]; [auto|]. destruct (l_order l <? l_order x)%Z; [auto|].
  rewrite perm_swap. now constructor.
Qed.
Lemma sort_perm ls : Permutation ls (sort_layers ls).
Proof. induction ls as [|x ls IH]; cbn; [auto|]. rewrite <- insert_perm. now constructor. Qed.
Lemma insert_sorted l ls : sorted_by ls -> ~ In (l_order l) (map l_order ls) -> sorted_by (insert_layer l ls).
Proof.
  induction 1 as [|x ls S IH F]; cbn [insert_layer map]; intros N; [repeat constructor|].
  destruct (Z.ltb_spec (l_order l) (l_order x)) as [L|L].
  - constructor; [constructor; auto|]. constructor; [exact L|]. eapply Forall_impl; [|exact F]. cbn. intros; lia.
  - constructor; [apply IH; intros H; apply N; cbn; auto|].
    apply Forall_forall. intros y Hy. apply (Permutation_in y (Permutation_sym (insert_perm l ls))) in Hy.
    destruct Hy as [<-|Hy]; [|rewrite Forall_forall in F; now apply F].
    assert (l_order x <> l_order l) by (intros E; apply N; cbn; auto). lia.
Qed.
Lemma sort_sorted ls : NoDup (map l_order ls) -> sorted_by (sort_layers ls).
Proof.
  induction ls as [|x ls IH]; cbn [map]; [constructor|]. intros N. inversion N as [|? ? H1 H2]; subst. cbn.
  apply insert_sorted; [now apply IH|]. intros H. apply H1.
  eapply Permutation_in; [|exact H]. apply Permutation_map, Permutation_sym, sort_perm.
Qed.
Lemma sorted_unique : forall a b, sorted_by a -> sorted_by b -> Permutation a b -> a = b.
Proof.
  assert (Irr : forall l x, StronglySorted (fun a b => (l_order a < l_order b)%Z) (x :: l) -> forall y, In y l -> (l_order x < l_order y)%Z).
  { intros l x H y Hy. inversion H as [|? ? _ F]; subst. rewrite Forall_forall in F. now apply F. }
  induction a as [|x a IH]; intros b Sa Sb P; [apply Permutation_nil in P; auto|].
  destruct b as [|y b]; [apply Permutation_sym, Permutation_nil in P; discriminate|].
  assert (x = y) as ->.
  { assert (Hx : In x (y :: b)) by (eapply Permutation_in; [exact P|now left]).
    assert (Hy : In y (x :: a)) by (eapply Permutation_in; [apply Permutation_sym, P|now left]).
    destruct Hx as [->|Hx]; [reflexivity|]. destruct Hy as [->|Hy]; [reflexivity|].
    pose proof (Irr _ _ Sb x Hx). pose proof (Irr _ _ Sa y Hy). lia. }
  f_equal. inversion Sa; inversion Sb; subst. apply IH; auto. eapply Permutation_cons_inv, P.
Qed.

Lemma arrive_irrelevant U full : (forall l, Permutation l (u_arrive U l)) -> sorted_by full ->
  sort_layers (u_arrive U full) = full.
Proof.
  intros H S. apply sorted_unique; [|exact S|].
  - apply sort_sorted. eapply Permutation_NoDup; [apply Permutation_map, H|].
    clear -S. induction S as [|x l S IH F]; cbn; constructor; auto. intros K. apply in_map_iff in K. destruct K as (y & E & Hy).
    rewrite Forall_forall in F. specialize (F y Hy). lia.
  - rewrite <- sort_perm. symmetry. apply H.
Qed.

(** trimming *)
Lemma idx_last_some {T} (l : list T) x : idx_last (l ++ [x]) = Ok x.
Proof. unfold idx_last. destruct l as [|y l]; [reflexivity|]. cbn [app]. f_equal. exact (last_last (y :: l) x y). Qed.

Lemma trim_spec ls : match trim_layers ls with
  | Ok out => exists a b, ls = a ++ out ++ b /\ (length a <= 1)%nat /\ (length b <= 1)%nat /\
      Forall (fun l => l_paths l = []) (a ++ b) /\
      (a = [] -> forall l, hd_error ls = Some l -> l_paths l <> []) /\
      (b = [] -> forall d, l_paths (last ls d) <> [])
  | Panic => ls = [] \/ exists l, ls = [l] /\ l_paths l = []
  | Diverge => False
  end.
Proof.
  destruct ls as [|l r]; cbn [trim_layers]; [auto|].
  assert (G : forall a ls1, l :: r = a ++ ls1 -> ls1 <> [] -> length a <= 1 -> Forall (fun l => l_paths l = []) a ->
     (a = [] -> l_paths l <> []) ->
     match (x <- idx_last ls1 ;; Ok match l_paths x with [] => removelast ls1 | _ => ls1 end) with
     | Ok out => exists a b, l :: r = a ++ out ++ b /\ length a <= 1 /\ length b <= 1 /\
         Forall (fun l => l_paths l = []) (a ++ b) /\
         (a = [] -> forall l0, hd_error (l :: r) = Some l0 -> l_paths l0 <> []) /\
         (b = [] -> forall d, l_paths (last (l :: r) d) <> [])
     | Panic => l :: r = [] \/ exists l0, l :: r = [l0] /\ l_paths l0 = []
     | Diverge => False
     end).
  { intros a ls1 E N La Fa Ha. destruct (exists_last N) as (ini & x & ->). rewrite idx_last_some. cbn [rbind].
    rewrite E. destruct (l_paths x) as [|p q] eqn:Ex.
    - exists a, [x]. rewrite removelast_app by discriminate. cbn [removelast]. rewrite app_nil_r.
      split; [reflexivity|]. split; [exact La|]. split; [auto|]. split; [apply Forall_app; auto|].
      split; [intros H l0; rewrite <- E; intros [= <-]; auto|discriminate].
    - exists a, []. rewrite app_nil_r. split; [reflexivity|]. split; [exact La|]. split; [auto|].
      split; [rewrite app_nil_r; exact Fa|].
      split; [intros H l0; rewrite <- E; intros [= <-]; auto|]. intros _ d. rewrite app_assoc, last_last. congruence. }
  destruct (l_paths l) as [|p q] eqn:El.
  - destruct r as [|l2 r].
    + cbn. right. eauto.
    + apply (G [l] (l2 :: r)); auto; try discriminate.
  - apply (G [] (l :: r)); auto; discriminate.
Qed.
End Layers.
