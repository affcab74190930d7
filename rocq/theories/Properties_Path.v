(** * Properties C32-C36: joining and simplifying paths

    Vocabulary: [PathClaims]. *)
From Coq Require Import ZArith Reals Lra Lia List Bool Permutation PeanoNat.
From Flocq Require Import IEEE754.BinarySingleNaN.
From Verif Require Import Arith ArithR ArithF64 Prim Path PathClaims JoinProofs MinProofs GeomSpec GeomProofs AreaProofs.
Import ListNotations.
Close Scope R_scope.
Close Scope Z_scope.
Close Scope num_scope.

Section Any.
Context {A : Arith}.

(** C32. [srt] is whatever the sort does with the end points, as long as it permutes them. *)
Theorem C32_join3_conserves : forall srt (p : list path),
  (forall l, Permutation l (srt l)) -> Forall (fun q : path => q <> []) p ->
  exists out, joinPaths3 srt p = Ok out /\ regroups (chain pt_equal) p out.
Proof. exact joinPaths3_ok. Qed.

(** A path without points makes it panic. *)
Theorem C32_join3_panics_on_empty : forall srt (p : list path), In [] p -> joinPaths3 srt p = Panic.
Proof. exact joinPaths3_panic. Qed.

(** What a chain is, in numbers: sides are neither lost nor added. *)
Lemma chain_sides touch q parts : chain touch q parts ->
  length q - 1 = list_sum (map (fun p : path => length p - 1) parts) /\ q <> [] /\ incl q (concat parts).
Proof.
  induction 1 as [p H|a p b q ps qs H1 [IH1 [_ I1]] H2 [IH2 [_ I2]] Ht].
  - cbn. rewrite Nat.add_0_r, app_nil_r. repeat split; auto. apply incl_refl.
  - split; [|split; [discriminate|]].
    + rewrite map_app, list_sum_app, <- IH1, <- IH2. cbn [length]. rewrite app_length. cbn [length]. lia.
    + rewrite concat_app. apply incl_app.
      * apply incl_appl. exact I1.
      * apply incl_appr. intros x Hx. apply I2. now right.
Qed.
Lemma rchain_sides touch q parts : rchain touch q parts ->
  length q - 1 = list_sum (map (fun p : path => length p - 1) parts) /\ q <> [] /\ incl q (concat parts).
Proof.
  induction 1 as [p H|p ps H [IH [N I]]|a p b q ps qs H1 [IH1 [_ I1]] H2 [IH2 [_ I2]] Ht].
  - cbn. rewrite Nat.add_0_r, app_nil_r. repeat split; auto. apply incl_refl.
  - rewrite rev_length. split; [exact IH|]. split.
    + intros E. apply N. rewrite <- (rev_involutive p), E. reflexivity.
    + intros x Hx. apply I. now apply in_rev.
  - split; [|split; [discriminate|]].
    + rewrite map_app, list_sum_app, <- IH1, <- IH2. cbn [length]. rewrite app_length. cbn [length]. lia.
    + rewrite concat_app. apply incl_app.
      * apply incl_appl. exact I1.
      * apply incl_appr. intros x Hx. apply I2. now right.
Qed.

Lemma sum_perm l l' : Permutation l l' -> list_sum l = list_sum l'.
Proof. induction 1; unfold list_sum in *; cbn [fold_right]; lia. Qed.

Lemma regroup_sides (R : path -> list path -> Prop) inp out :
  (forall q parts, R q parts -> length q - 1 = list_sum (map (fun p : path => length p - 1) parts)) ->
  regroups R inp out ->
  list_sum (map (fun p : path => length p - 1) out) = list_sum (map (fun p : path => length p - 1) inp).
Proof.
  intros H (parts & P & F).
  rewrite <- (sum_perm _ _ (Permutation_map (fun p : path => length p - 1) P)). clear P.
  induction F as [|q ps out parts Hq F IH]; [reflexivity|].
  cbn [map concat]. rewrite map_app, list_sum_app, <- IH, <- (H _ _ Hq). reflexivity.
Qed.

Theorem C32_join3_sides : forall srt (p : list path) out,
  (forall l, Permutation l (srt l)) -> joinPaths3 srt p = Ok out ->
  list_sum (map (fun q : path => length q - 1) out) = list_sum (map (fun q : path => length q - 1) p).
Proof.
  intros srt p out Hs E.
  assert (F : Forall (fun q : path => q <> []) p).
  { apply Forall_forall. intros q Hq ->. rewrite joinPaths3_panic in E by exact Hq. discriminate. }
  destruct (joinPaths3_ok srt p Hs F) as (out' & E' & R). rewrite E in E'. injection E' as <-.
  apply (regroup_sides (chain pt_equal)); [|exact R]. intros q parts C. now apply chain_sides in C.
Qed.

(** C35 *)
Theorem C35_minimize : forall (p : path) d, p <> [] ->
  let q := minimizeLines p in
  q <> [] /\ incl q p /\
  (isClosed p = false -> subseq q p /\ hd d q = hd d p /\ last q d = last p d) /\
  (isClosed p = true ->
     (subseq q p /\ hd d q = hd d p /\ last q d = last p d) \/
     ((exists c, hd c q = last q c) /\ (subseq (tl q) p \/ subseq (removelast q) p))).
Proof.
  intros p d Hp q. destruct (minimize_ok p d Hp) as (H1 & H2 & H3). fold q in H1, H2, H3.
  split; [exact H1|]. split; [exact H2|]. split.
  - intros C. destruct H3 as [H3|(C' & _)]; [exact H3|congruence].
  - intros _. destruct H3 as [H3|(_ & H3)]; [left|right]; exact H3.
Qed.
End Any.

(** C34. [ord] is the order in which Go's map iteration hands out the paths in each round. *)
Theorem C34_join2_conserves : forall (A : Arith), EqOK A -> forall ord (p : list path),
  (forall k l, Permutation l (ord k l)) -> Forall (fun q : path => q <> []) p ->
  exists out, joinPaths2 ord p = Ok out /\ regroups (rchain same_key) p out /\
    ForallOrdPairs (fun a b => forall d, same_key (last a d) (last b d) = false) out.
Proof. intros A E ord p Ho Hp. exact (joinPaths2_ok ord p Ho Hp). Qed.

Theorem C34_join2_sides : forall (A : Arith), EqOK A -> forall ord (p : list path) out,
  (forall k l, Permutation l (ord k l)) -> Forall (fun q : path => q <> []) p -> joinPaths2 ord p = Ok out ->
  list_sum (map (fun q : path => length q - 1) out) = list_sum (map (fun q : path => length q - 1) p).
Proof.
  intros A E ord p out Ho Hp H. destruct (joinPaths2_ok ord p Ho Hp) as (out' & H1 & H2 & _).
  rewrite H in H1. injection H1 as <-.
  apply (regroup_sides (rchain same_key)); [|exact H2]. intros q parts C. now apply rchain_sides in C.
Qed.

(** ** Counterexamples in float64, whatever the elementary functions are *)

(** sort.Slice on at most 12 elements is this insertion sort: the new element
    moves left while it is smaller than its neighbour (prefix kept reversed). *)
Section Sort.
Context {A : Arith}.
Fixpoint ins (x : sortp) (pre : list sortp) : list sortp :=
  match pre with
  | y :: r => if sortp_less (fst x) (fst y) then y :: ins x r else x :: pre
  | [] => [x]
  end.
Definition go_insertion_sort (l : list sortp) : list sortp := rev (fold_left (fun pre x => ins x pre) l []).

Lemma ins_perm x pre : Permutation (x :: pre) (ins x pre).
Proof.
  induction pre as [|y r IH]; [apply Permutation_refl|]. cbn. destruct (sortp_less (fst x) (fst y)); [|apply Permutation_refl].
  etransitivity; [apply perm_swap|]. now constructor.
Qed.
Lemma go_sort_perm l : Permutation l (go_insertion_sort l).
Proof.
  unfold go_insertion_sort. rewrite <- Permutation_rev.
  assert (H : forall l pre, Permutation (l ++ pre) (fold_left (fun pre x => ins x pre) l pre)).
  { clear. induction l as [|x l IH]; intros pre; [apply Permutation_refl|]. cbn [fold_left List.app].
    etransitivity; [|apply IH]. etransitivity; [apply Permutation_middle|]. apply Permutation_app_head, ins_perm. }
  rewrite <- (app_nil_r l) at 1. apply H.
Qed.

(** point with integer coordinates *)
Definition zpt (x y z : Z) : point := P3 (nofZ x) (nofZ y) (nofZ z).
(** two paths that a join should still have merged *)
Definition joinable (a b : path) : bool :=
  match a, b with x :: _, y :: _ => pt_equal (last a x) y | _, _ => false end.
End Sort.

(** Two contours through one point: A->X, A->Y, U->A, V->A. *)
Definition touching {A : Arith} : list path :=
  [[zpt 0 0 0; zpt 1 0 0]; [zpt 0 0 0; zpt 1 1 0]; [zpt (-1) 0 0; zpt 0 0 0]; [zpt (-1) 1 0; zpt 0 0 0]].

(** two paths at positions i and j of the result *)
Definition left_apart {A : Arith} (r : res (list path)) (i j : nat) : bool :=
  match r with
  | Ok out => match nth_error out i, nth_error out j with Some a, Some b => joinable a b | _, _ => false end
  | _ => false
  end.
Lemma left_apart_ok {A : Arith} r i j : left_apart r i j = true ->
  exists out a b, r = Ok out /\ nth_error out i = Some a /\ nth_error out j = Some b /\ joinable a b = true.
Proof.
  unfold left_apart. destruct r as [out| |]; try discriminate.
  destruct (nth_error out i) as [a|] eqn:Ei; [|discriminate]. destruct (nth_error out j) as [b|] eqn:Ej; [|discriminate]. intros H. exists out, a, b. auto.
Qed.

Theorem C33_join3_incomplete_refuted : forall E, exists out a b,
  @joinPaths3 (ArithF64 E) go_insertion_sort touching = Ok out /\
  nth_error out 2 = Some a /\ nth_error out 0 = Some b /\ joinable a b = true.
Proof. intros E. apply left_apart_ok. vm_compute. reflexivity. Qed.

(** C34: joinable paths may stay apart. *)
Theorem C34_join2_incomplete_refuted : forall E, exists out a b,
  @joinPaths2 (ArithF64 E) (fun _ l => l) [[zpt 0 0 0; zpt 1 0 0]; [zpt 2 0 0; zpt 0 0 0]] = Ok out /\
  nth_error out 1 = Some a /\ nth_error out 0 = Some b /\ joinable a b = true.
Proof. intros E. apply left_apart_ok. vm_compute. reflexivity. Qed.

(** C36, exact arithmetic *)
Definition traced (q : list Rpoint) (t : Rpoint) : Prop := exists a b, In (a, b) (combine q (tl q)) /\ on_seg a b t.

Theorem C36_spike_cut : forall D : R, (2 <= D)%R -> exists (p : list Rpoint) (v : Rpoint),
  In v p /\ length p = 3 /\ length (minimizeLines p : list Rpoint) = 2 /\
  forall t, traced (minimizeLines p) t -> (X v - X t >= D - 1)%R.
Proof.
  intros D HD. exists [ptX 0; ptX D; ptX 1], (ptX D). split; [cbn; auto|]. split; [reflexivity|].
  rewrite min_spike by exact HD. split; [reflexivity|]. intros t (a & b & [E|[]] & (u & Hu & ->)). injection E as <- <-.
  unfold along, ptX, X, Y, Z3. cbn [px]. rcbn. lra.
Qed.

Theorem C36_closed_collapse : forall a b : Rpoint, minimizeLines [a; b; a] = [a].
Proof. exact min_back. Qed.

(** ** The hypotheses can be met *)
Section Examples.
Let AF := ArithF64 elem0.
Existing Instance AF.
(** a square in four pieces, in scrambled order *)
Let square : list path := [[zpt 0 0 0; zpt 1 0 0]; [zpt 1 1 0; zpt 0 1 0]; [zpt 1 0 0; zpt 1 1 0]; [zpt 0 1 0; zpt 0 0 0]].
Example ex_square_ne : Forall (fun q : path => q <> []) square.
Proof. repeat (apply Forall_cons || apply Forall_nil); discriminate. Qed.
Let one_closed (r : res (list path)) (n : nat) : bool :=
  match r with Ok [q] => Nat.eqb (length q) n && isClosed q | _ => false end.
Example ex_join3 : one_closed (joinPaths3 go_insertion_sort square) 5 = true.
Proof. vm_compute. reflexivity. Qed.
Example ex_join2 : one_closed (joinPaths2 (fun _ l => l) square) 5 = true.
Proof. vm_compute. reflexivity. Qed.
Example ex_join2_rev : one_closed (joinPaths2 (fun _ l => rev l) square) 5 = true.
Proof. vm_compute. reflexivity. Qed.
(** MinimizeLines does remove something, in an open path and at the seam of a closed one *)
Let same (p q : path) : bool := Nat.eqb (length p) (length q) && forallb (fun ab => pt_eqb (fst ab) (snd ab)) (combine p q).
Example ex_min_open : same (minimizeLines [zpt 0 0 0; zpt 1 0 0; zpt 2 0 0; zpt 2 5 0]) [zpt 0 0 0; zpt 2 0 0; zpt 2 5 0] = true.
Proof. vm_compute. reflexivity. Qed.
Example ex_min_seam : same (minimizeLines [zpt 1 0 0; zpt 3 0 0; zpt 3 3 0; zpt 0 3 0; zpt 0 0 0; zpt 1 0 0])
  [zpt 0 0 0; zpt 3 0 0; zpt 3 3 0; zpt 0 3 0; zpt 0 0 0] = true.
Proof. vm_compute. reflexivity. Qed.
End Examples.

Print Assumptions C32_join3_conserves.
Print Assumptions C32_join3_panics_on_empty.
Print Assumptions C32_join3_sides.
Print Assumptions C33_join3_incomplete_refuted.
Print Assumptions C34_join2_conserves.
Print Assumptions C34_join2_sides.
Print Assumptions C34_join2_incomplete_refuted.
Print Assumptions C35_minimize.
Print Assumptions C36_spike_cut.
Print Assumptions C36_closed_collapse.
