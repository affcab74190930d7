(** * Properties of STL reading and writing (C16-C19) *)
From Coq Require Import String Ascii ZArith Reals List Bool Lia Arith.
From Flocq Require Import Core IEEE754.BinarySingleNaN.
From Verif Require Import Arith ArithF64 Prim Stl StlClaims StlProofs StlProofs2 StlProofs3.
Import ListNotations.
Close Scope R_scope. Close Scope num_scope. Close Scope string_scope.
Local Open Scope Z_scope.

Section P.
Variable E : elem.
Let AE := ArithF64 E.

(** ** C16: binary round trip *)

(** Whatever the mesh (NaN and infinite coordinates included): if the disk takes
    all bytes, SaveSTL succeeds, and LoadSTL of the file gives the same number of
    triangles in the same order, with vertices rounded to single precision and
    normals recomputed. *)
Theorem C16_roundtrip parse (m : list (@triangle AE)) : Z.of_nat (length m) < 2 ^ 32 ->
  exists file m',
    (forall limit, (length file <= limit)%nat -> saveSTL E limit m = Ok (file, false)) /\
    loadSTL E parse file = Ok (Gives E m' false) /\
    Forall2 (reloaded E) m m'.
Proof.
  intros H. exists (stl_bytes E m), (map (rt32 E) m). split; [|split].
  - intros limit L. rewrite save_spec. rewrite firstn_all2 by exact L.
    rewrite bytes_length in L. rewrite (proj2 (Z.ltb_ge _ _)); [reflexivity|].
    pose proof (Z.mul_div_le (83 + 50 * Z.of_nat (length m)) 4096 eq_refl).
    assert (Q : forall n, (84 + 50 * n <= limit)%nat -> 83 + 50 * Z.of_nat n <= Z.of_nat limit) by (intros; lia).
    eapply Z.le_trans; [apply Z.mul_div_le; reflexivity|apply Q; exact L].
  - now apply load_bytes.
  - clear H. induction m as [|t m IH]; constructor; [apply reloaded_rt|assumption].
Qed.

(** rounding has one result *)
Theorem C16_rounding_unique x y z : rounded32 x y -> rounded32 x z -> y = z.
Proof. apply rounded32_fun. Qed.

(** A mesh of single-precision vertices with computed normals is reproduced exactly ... *)
Theorem C16_exact parse (m : list (@triangle AE)) : Z.of_nat (length m) < 2 ^ 32 ->
  Forall (fun t => reloaded E t t) m ->
  exists file,
    (forall limit, (length file <= limit)%nat -> saveSTL E limit m = Ok (file, false)) /\
    loadSTL E parse file = Ok (Gives E m false).
Proof.
  intros H F. destruct (C16_roundtrip parse m H) as (file & m' & S & L & R).
  exists file. split; [assumption|]. rewrite L. do 2 f_equal.
  clear S L H. induction R as [|t u m m' R1 R IH]; [reflexivity|].
  inversion F; subst. f_equal; [|auto]. eapply reloaded_fun; eassumption.
Qed.

(** ... and every mesh that was loaded back is one, so a second round trip
    changes nothing. *)
Theorem C16_stable (m m' : list (@triangle AE)) :
  Forall2 (reloaded E) m m' -> Forall (fun t => reloaded E t t) m'.
Proof.
  induction 1 as [|t u m m' R1 R IH]; constructor; [|assumption].
  eapply reloaded_idem; eassumption.
Qed.

(** ** C17: detection *)

(** a file of fewer than 84 bytes is rejected, whatever is in it *)
Theorem C17_short parse file : (length file < 84)%nat -> loadSTL E parse file = Ok (Fails E).
Proof. apply load_short. Qed.

(** a file of binary size is read as binary: the number of triangles it announces,
    no error, and nothing depends on how texts are parsed *)
Theorem C17_binary file : binary_size file ->
  exists ts, Z.of_nat (length ts) = count_field file /\
    forall parse, loadSTL E parse file = Ok (Gives E ts false).
Proof.
  intros H. destruct (load_binary E file H) as (ts & L & P & _).
  exists ts. split; [|assumption]. destruct H. lia.
Qed.

(** every other file of at least 84 bytes is read as text *)
Theorem C17_ascii parse file : (84 <= length file)%nat -> ~ binary_size file ->
  loadSTL E parse file = loadSTLAscii E parse file.
Proof. apply load_ascii. Qed.

(** in particular a binary file cut anywhere after its header, or with bytes
    appended, is never read as a binary mesh *)
Theorem C17_truncated parse file k : binary_size file -> (84 <= k < length file)%nat ->
  loadSTL E parse (firstn k file) = loadSTLAscii E parse (firstn k file).
Proof.
  intros [H1 H2] K.
  assert (L : length (firstn k file) = k) by (rewrite firstn_length; lia).
  apply load_ascii; [lia|]. intros [_ B]. rewrite count_firstn in B by lia. lia.
Qed.

Theorem C17_extended parse file extra : binary_size file -> extra <> [] ->
  loadSTL E parse (file ++ extra) = loadSTLAscii E parse (file ++ extra).
Proof.
  intros [H1 H2] K.
  assert (L : (1 <= length extra)%nat) by (destruct extra; [easy|cbn [length]; lia]).
  apply load_ascii; [rewrite app_length; lia|]. intros [_ B].
  rewrite count_app, app_length in B by lia. lia.
Qed.

(** no file makes LoadSTL panic *)
Theorem C17_total parse file : exists r, loadSTL E parse file = Ok r.
Proof.
  destruct (Nat.lt_ge_cases (length file) 84) as [C|C].
  - rewrite load_short by assumption. eauto.
  - rewrite load_long by assumption.
    destruct (Z.eqb_spec (Z.of_nat (length file)) (count_field file * 50 + 84)) as [Q|Q].
    + destruct (load_binary E file) as (ts & _ & _ & B); [split; lia|]. eauto.
    + destruct (loadAscii_ok E parse file) as (ts & e & ->). eauto.
Qed.

(** ** C18: text *)

Lemma reads_no_newline parse ls ps : reads E parse ls ps -> Forall (fun l => ~ In 10 l) ls.
Proof.
  assert (W : forall w, blank w -> ~ In 10 w).
  { intros w B I. unfold blank in B. rewrite Forall_forall in B. specialize (B _ I). cbn in B. lia. }
  assert (D : forall w, word w -> ~ In 10 w).
  { intros w [_ B] I. rewrite Forall_forall in B. specialize (B _ I). apply B. cbn. tauto. }
  assert (V : ~ In 10 (bytes "vertex")) by (cbn; lia).
  induction 1 as [|l a b c ls ps L F R IH|l ls ps L F R IH]; constructor; try assumption.
  - destruct L as (A & B & C & w0 & w1 & w2 & w3 & w4 & W0 & W1 & W2 & W3 & W4 & _ & _ & _ & ->).
    rewrite !in_app_iff. intros I.
    repeat (destruct I as [I|I]; [revert I; (exact V || (apply W; assumption) || (apply D; assumption))|]).
    revert I; apply W; assumption.
  - apply L.
Qed.

(** text (no control character below the tab) of less than 7.5 GB is never taken for binary *)
Theorem C18_text_not_binary file : Forall (fun c => 9 <= c) file ->
  Z.of_nat (length file) < 7579354134 -> ~ binary_size file.
Proof.
  intros F L [B1 B2]. unfold count_field in B2.
  assert (N : forall i, (i < 84)%nat -> 9 <= nth i file 0).
  { intros i Hi. rewrite Forall_forall in F. apply F. apply nth_In. lia. }
  pose proof (N 80%nat ltac:(lia)). pose proof (N 81%nat ltac:(lia)).
  pose proof (N 82%nat ltac:(lia)). pose proof (N 83%nat ltac:(lia)). lia.
Qed.

(** A text of vertex lines and other lines gives one triangle per three vertex
    lines, in order; the one or two left over are dropped. *)
Theorem C18_ascii parse ls ps file :
  reads E parse ls ps -> is_text ls file ->
  Forall (fun c => 9 <= c) file -> 84 <= Z.of_nat (length file) < 7579354134 ->
  loadSTL E parse file = Ok (Gives E (by_three E ps) false).
Proof.
  intros R T F L.
  rewrite load_ascii; [|lia|apply C18_text_not_binary; [assumption|lia]].
  unfold loadSTLAscii. rewrite (split_is_text ls file (reads_no_newline _ _ _ R) T).
  rewrite (loop_reads E parse ls ps R). cbn [rbind].
  rewrite (by_three_fold E (length ps)) by (reflexivity || lia). reflexivity.
Qed.

(** printed triangles: the points of the triangles, in order *)
Theorem C18_printed parse ls file (ts : list (@triangle AE)) :
  reads E parse ls (flat_map (fun t => [@t1 AE t; @t2 AE t; @t3 AE t]) ts) -> is_text ls file ->
  Forall (fun c => 9 <= c) file -> 84 <= Z.of_nat (length file) < 7579354134 ->
  loadSTL E parse file =
  Ok (Gives E (map (fun t => @newTriangle AE (@t1 AE t) (@t2 AE t) (@t3 AE t)) ts) false).
Proof.
  intros R T F L. rewrite (C18_ascii _ _ _ _ R T F L). do 2 f_equal.
  clear. induction ts as [|t ts IH]; [reflexivity|]. cbn [flat_map app map by_three]. now rewrite IH.
Qed.

(** At a line of 65536 bytes or more reading stops: an error, and the triangles so far. *)
Theorem C18_long_line parse ls ps l rest :
  reads E parse ls ps -> ~ In 10 l -> 65536 <= Z.of_nat (length l) ->
  loadSTLAscii E parse (text ls ++ l ++ rest) = Ok (Gives E (by_three E ps) true).
Proof.
  intros R N L. unfold loadSTLAscii.
  assert (S : exists l' r, split_lines [] (text ls ++ l ++ rest) = ls ++ l' :: r /\ (max_token <= length l')%nat).
  { pose proof (reads_no_newline _ _ _ R) as NL. clear R.
    induction NL as [|x ls X NL IH].
    - cbn [text map concat app].
      assert (G : forall rest cur, (max_token <= length (cur ++ l))%nat ->
         exists l' r, split_lines cur (l ++ rest) = l' :: r /\ (max_token <= length l')%nat).
      { clear L. revert N. induction l as [|c l IH]; intros N r cur M.
        - rewrite app_nil_r in M. cbn [app].
          revert cur M. induction r as [|d r IH]; intros cur M; cbn [split_lines].
          + destruct cur; [cbn [length] in M; unfold max_token in M; lia|].
            do 2 eexists; split; [reflexivity|]. now rewrite rev_length.
          + destruct (d =? 10); [do 2 eexists; split; [reflexivity|]; now rewrite rev_length|].
            apply IH. cbn [length]. lia.
        - cbn [app split_lines]. destruct (Z.eqb_spec c 10) as [->|Q]; [exfalso; apply N; now left|].
          apply IH; [intros I; apply N; now right|].
          rewrite app_length in *. cbn [length] in *. lia. }
      apply G. cbn [app]. unfold max_token. lia.
    - destruct IH as (l' & r & Q & M). exists l', r. split; [|assumption].
      unfold text in *. cbn [map concat app]. rewrite <- !app_assoc. cbn [app].
      rewrite split_line by assumption. cbn [rev app]. now rewrite Q. }
  destruct S as (l' & r & -> & M).
  assert (A : forall s, ascii_loop E parse s (ls ++ l' :: r) = Ok (fold_left (ascii_step E) ps s, true)).
  { clear N L. induction R as [|x a b c ls ps V F R IH|x ls ps O F R IH]; intros s; cbn [app ascii_loop].
    - now rewrite (proj2 (Nat.leb_le _ _) M).
    - unfold fits in F. rewrite (proj2 (Nat.leb_gt _ _)) by (unfold max_token; lia).
      rewrite (vertex_line_point E parse _ _ _ _ V). cbn [rbind fold_left]. apply IH.
    - unfold fits in F. rewrite (proj2 (Nat.leb_gt _ _)) by (unfold max_token; lia).
      rewrite (other_line_point E parse _ O). cbn [rbind]. apply IH. }
  rewrite A. cbn [rbind]. rewrite (by_three_fold E (length ps)) by (reflexivity || lia). reflexivity.
Qed.

(** ** C19: a disk that stops accepting bytes *)

(** [n] triangles take 84 + 50 n bytes; with a disk that accepts [limit] bytes the
    file is that much of the encoding, and an error is reported iff the disk gave
    up within the whole blocks of 4096 bytes written before the final flush *)
Theorem C19_outcome (m : list (@triangle AE)) :
  exists encoding, Z.of_nat (length encoding) = 84 + 50 * Z.of_nat (length m) /\
  forall limit, saveSTL E limit m =
    Ok (firstn limit encoding, Z.of_nat limit <? 4096 * ((83 + 50 * Z.of_nat (length m)) / 4096)).
Proof.
  exists (stl_bytes E m). split.
  - rewrite bytes_length. assert (Q : forall n, Z.of_nat (84 + 50 * n) = 84 + 50 * Z.of_nat n) by (intros; lia).
    apply Q.
  - intros limit. apply save_spec.
Qed.

(** so for every mesh there is a disk on which SaveSTL reports success and leaves
    an incomplete file, *)
Theorem C19_silent_loss (m : list (@triangle AE)) :
  exists limit file, saveSTL E limit m = Ok (file, false) /\
    Z.of_nat (length file) < 84 + 50 * Z.of_nat (length m).
Proof.
  destruct (C19_outcome m) as (enc & L & S).
  exists (length enc - 1)%nat, (firstn (length enc - 1) enc). split.
  - rewrite S. f_equal. f_equal. apply Z.ltb_ge.
    pose proof (Z.mul_div_le (83 + 50 * Z.of_nat (length m)) 4096 eq_refl). lia.
  - rewrite firstn_length. lia.
Qed.

(** and an error is reported only if the file is incomplete *)
Theorem C19_error_is_real (m : list (@triangle AE)) limit file :
  saveSTL E limit m = Ok (file, true) -> Z.of_nat (length file) < 84 + 50 * Z.of_nat (length m).
Proof.
  intros H. destruct (C19_outcome m) as (enc & L & S). rewrite S in H.
  assert (H1 : file = firstn limit enc) by congruence.
  assert (H2 : (Z.of_nat limit <? 4096 * ((83 + 50 * Z.of_nat (length m)) / 4096)) = true) by congruence.
  apply Z.ltb_lt in H2.
  pose proof (Z.mul_div_le (83 + 50 * Z.of_nat (length m)) 4096 eq_refl).
  subst file. rewrite firstn_length. lia.
Qed.
End P.

(** ** the hypotheses are met *)

(** a triangle with a coordinate that is not a single: 0.1 *)
Definition tri0 : @triangle (ArithF64 elem0) :=
  let q p d := f64_lit p d in
  @newTriangle (ArithF64 elem0)
    (@P3 (ArithF64 elem0) (q 1 10%positive) (q 0 1%positive) (q 0 1%positive))
    (@P3 (ArithF64 elem0) (q 1 1%positive) (q 0 1%positive) (q 5 2%positive))
    (@P3 (ArithF64 elem0) (q 0 1%positive) (q (-3) 1%positive) (q 0 1%positive)).

(** 0.1 becomes 13421773 / 2^27 *)
Example C16_example :
  match loadSTL elem0 (fun _ => B754_nan) (stl_bytes elem0 [tri0; tri0]) with
  | Ok (Gives _ [t; u] false) =>
      match @px _ (@t1 _ t), @pz _ (@t2 _ u) with
      | B754_finite false m e _, B754_finite false m' e' _ =>
          Pos.eqb m (13421773 * 2 ^ 29) && (e =? -27 - 29)
          && Pos.eqb m' (5 * 2 ^ 50) && (e' =? -51)
      | _, _ => false
      end
  | _ => false
  end = true.
Proof. vm_compute. reflexivity. Qed.

Example C17_binary_example : binary_size (stl_bytes elem0 [tri0; tri0; tri0]).
Proof. split; vm_compute; [discriminate|reflexivity]. Qed.

Definition ascii_file : list Z := (map (fun c => Z.of_nat (nat_of_ascii c)) (list_ascii_of_string
"solid x
  facet normal 0 0 1
    outer loop
      vertex 0.1 0 0
      vertex  1 0   2.5
      vertex 0 -3 0
    endloop
  endfacet
  facet
      vertex 1 2 3
endsolid x
"))%string.

Example C18_example : exists ls ps,
  reads elem0 (fun w => f64_ofZ (Z.of_nat (length w))) ls ps /\ is_text ls ascii_file /\
  Forall (fun c => 9 <= c) ascii_file /\ 84 <= Z.of_nat (length ascii_file) < 7579354134 /\
  length ps = 4%nat /\ length (by_three elem0 ps) = 1%nat.
Proof.
  exists (map bytes ["solid x"; "  facet normal 0 0 1"; "    outer loop"; "      vertex 0.1 0 0";
    "      vertex  1 0   2.5"; "      vertex 0 -3 0"; "    endloop"; "  endfacet"; "  facet";
    "      vertex 1 2 3"; "endsolid x"]%string).
  assert (B : forall w, forallb (fun c => existsb (Z.eqb c) [9; 11; 12; 13; 32]) w = true -> blank w).
  { intros w H. unfold blank. apply Forall_forall. intros c I. rewrite forallb_forall in H.
    specialize (H c I). apply existsb_exists in H. destruct H as (d & D & Q). apply Z.eqb_eq in Q. now subst. }
  assert (W : forall w, negb (match w with [] => true | _ => false end) &&
     forallb (fun c => negb (existsb (Z.eqb c) [9; 10; 11; 12; 13; 32])) w = true -> word w).
  { intros w H. apply andb_true_iff in H. destruct H as [H1 H2]. split; [now destruct w|].
    apply Forall_forall. intros c I. rewrite forallb_forall in H2. specialize (H2 c I).
    intros J. apply negb_true_iff in H2. rewrite <- not_true_iff_false in H2. apply H2.
    apply existsb_exists. exists c. split; [assumption|apply Z.eqb_refl]. }
  assert (O : forall l n, forallb (fun c => negb (c =? 10)) l &&
      forallb (fun c => existsb (Z.eqb c) [9; 11; 12; 13; 32]) (firstn n l) &&
      match skipn n l with [] => true | c :: _ => negb (c =? 118) && negb (existsb (Z.eqb c) [9; 11; 12; 13; 32]) end = true ->
      other_line l).
  { intros l n H. apply andb_true_iff in H. destruct H as [H H3]. apply andb_true_iff in H. destruct H as [H1 H2].
    split.
    - intros I. rewrite forallb_forall in H1. specialize (H1 _ I). discriminate.
    - exists (firstn n l), (skipn n l). split; [symmetry; apply firstn_skipn|]. split; [now apply B|].
      destruct (skipn n l) as [|c r]; [exact I|]. apply andb_true_iff in H3. destruct H3 as [H3 H4].
      split; [intros ->; discriminate|]. intros J. apply negb_true_iff in H4.
      rewrite <- not_true_iff_false in H4. apply H4. apply existsb_exists. exists c. split; [assumption|apply Z.eqb_refl]. }
  cbn [map]. eexists. split.
  { apply reads_other; [apply (O _ 0%nat); reflexivity|vm_compute; reflexivity|].
    apply reads_other; [apply (O _ 2%nat); reflexivity|vm_compute; reflexivity|].
    apply reads_other; [apply (O _ 4%nat); reflexivity|vm_compute; reflexivity|].
    eapply reads_vertex with (a := bytes "0.1") (b := bytes "0") (c := bytes "0").
    { split; [apply W; reflexivity|]. split; [apply W; reflexivity|]. split; [apply W; reflexivity|].
      exists (bytes "      "), (bytes " "), (bytes " "), (bytes " "), [].
      repeat (split; [apply B; reflexivity|]). repeat (split; [discriminate|]). reflexivity. }
    { vm_compute; reflexivity. }
    eapply reads_vertex with (a := bytes "1") (b := bytes "0") (c := bytes "2.5").
    { split; [apply W; reflexivity|]. split; [apply W; reflexivity|]. split; [apply W; reflexivity|].
      exists (bytes "      "), (bytes "  "), (bytes " "), (bytes "   "), [].
      repeat (split; [apply B; reflexivity|]). repeat (split; [discriminate|]). reflexivity. }
    { vm_compute; reflexivity. }
    eapply reads_vertex with (a := bytes "0") (b := bytes "-3") (c := bytes "0").
    { split; [apply W; reflexivity|]. split; [apply W; reflexivity|]. split; [apply W; reflexivity|].
      exists (bytes "      "), (bytes " "), (bytes " "), (bytes " "), [].
      repeat (split; [apply B; reflexivity|]). repeat (split; [discriminate|]). reflexivity. }
    { vm_compute; reflexivity. }
    apply reads_other; [apply (O _ 4%nat); reflexivity|vm_compute; reflexivity|].
    apply reads_other; [apply (O _ 2%nat); reflexivity|vm_compute; reflexivity|].
    apply reads_other; [apply (O _ 2%nat); reflexivity|vm_compute; reflexivity|].
    eapply reads_vertex with (a := bytes "1") (b := bytes "2") (c := bytes "3").
    { split; [apply W; reflexivity|]. split; [apply W; reflexivity|]. split; [apply W; reflexivity|].
      exists (bytes "      "), (bytes " "), (bytes " "), (bytes " "), [].
      repeat (split; [apply B; reflexivity|]). repeat (split; [discriminate|]). reflexivity. }
    { vm_compute; reflexivity. }
    apply reads_other; [apply (O _ 0%nat); reflexivity|vm_compute; reflexivity|].
    apply reads_nil. }
  split; [left; vm_compute; reflexivity|].
  split. { apply Forall_forall. intros c I. 
    assert (G : forallb (fun c => 9 <=? c) ascii_file = true) by (vm_compute; reflexivity).
    rewrite forallb_forall in G. apply Z.leb_le. now apply G. }
  split; [vm_compute; split; [discriminate|reflexivity]|]. split; reflexivity.
Qed.

(** 200 triangles (10084 bytes): a disk of 8191 bytes is reported, one of 8192 is not *)
Example C19_example :
  match saveSTL elem0 8191 (repeat tri0 200), saveSTL elem0 8192 (repeat tri0 200) with
  | Ok (f, true), Ok (g, false) => (length f =? 8191)%nat && (length g =? 8192)%nat
  | _, _ => false
  end = true.
Proof. vm_compute. reflexivity. Qed.

Print Assumptions C16_roundtrip.
Print Assumptions C16_rounding_unique.
Print Assumptions C16_exact.
Print Assumptions C16_stable.
Print Assumptions C17_short.
Print Assumptions C17_binary.
Print Assumptions C17_ascii.
Print Assumptions C17_truncated.
Print Assumptions C17_extended.
Print Assumptions C17_total.
Print Assumptions C18_text_not_binary.
Print Assumptions C18_ascii.
Print Assumptions C18_printed.
Print Assumptions C18_long_line.
Print Assumptions C19_outcome.
Print Assumptions C19_silent_loss.
Print Assumptions C19_error_is_real.
