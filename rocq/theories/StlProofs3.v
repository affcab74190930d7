(** * SaveSTL on a disk that stops accepting bytes *)
From Coq Require Import ZArith List Bool Lia Arith.
From Verif Require Import Arith ArithF64 Prim Stl StlClaims StlProofs StlProofs2.
Import ListNotations.
Close Scope num_scope. Close Scope Z_scope.
Local Open Scope nat_scope.

(** bytes that have reached the disk before the final flush *)
Definition flushed (n : nat) : nat := buf_size * ((n - 1) / buf_size).

Lemma buf_size_Z : Z.of_nat buf_size = 4096%Z.
Proof. unfold buf_size. now rewrite Z2Nat.id. Qed.
Lemma buf_size_pos : 84 <= buf_size.
Proof. pose proof buf_size_Z. lia. Qed.
Opaque buf_size.

Lemma flushed_mono a b : a <= b -> flushed a <= flushed b.
Proof.
  pose proof buf_size_pos as BP.
  intros H. unfold flushed. apply Nat.mul_le_mono_l. apply Nat.div_le_mono; lia.
Qed.

Lemma flushed_le n : flushed n <= n.
Proof. unfold flushed. pose proof (Nat.mul_div_le (n - 1) buf_size). lia. Qed.

Lemma flushed_at k r : 1 <= r <= buf_size -> flushed (buf_size * k + r) = buf_size * k.
Proof.
  pose proof buf_size_pos as BP.
  intros H. unfold flushed. f_equal. symmetry.
  apply (Nat.div_unique _ _ _ (r - 1)); lia.
Qed.

Lemma flushed_Z n : 1 <= n ->
  Z.of_nat (flushed n) = (4096 * ((Z.of_nat n - 1) / 4096))%Z.
Proof.
  pose proof buf_size_pos as BP.
  intros H. unfold flushed. rewrite Nat2Z.inj_mul, Nat2Z.inj_div, Nat2Z.inj_sub by assumption.
  reflexivity.
Qed.

Opaque flushed.

Section D.
Variable limit : nat.

Record inv (s : wstate) (all : list Z) : Prop := {
  i_err : w_err s = false;
  i_all : w_file s ++ w_buf s = all;
  i_file : length (w_file s) = flushed (length all);
  i_mult : exists k, length (w_file s) = buf_size * k;
  i_buf : length (w_buf s) <= buf_size;
  i_full : all <> [] -> 1 <= length (w_buf s);
  i_lim : length (w_file s) <= limit }.

Lemma firstn_prefix {X} n (a b : list X) : n <= length a -> firstn n (a ++ b) = firstn n a.
Proof.
  pose proof buf_size_pos as BP.
  intros H. rewrite firstn_app. replace (n - length a) with 0 by lia. cbn [firstn]. apply app_nil_r.
Qed.

Lemma flush_inv s all : inv s all -> w_file (w_flush limit s) = firstn limit all.
Proof.
  pose proof buf_size_pos as BP.
  intros [E A F M B U L]. unfold w_flush. rewrite E.
  destruct (Nat.eqb_spec (length (w_buf s)) 0) as [Z|Z].
  - assert (all = []) by (destruct all; [reflexivity|]; exfalso; assert (1 <= length (w_buf s)) by (apply U; easy); lia).
    destruct (w_file s); [|subst; discriminate]. rewrite H. now rewrite firstn_nil.
  - unfold disk_write. cbn [w_file]. rewrite <- A, firstn_app. rewrite (firstn_all2 (w_file s)) by lia.
    f_equal. destruct (Nat.le_ge_cases (length (w_buf s)) (limit - length (w_file s))) as [C|C].
    + rewrite Nat.min_l by lia. now rewrite !firstn_all2 by lia.
    + now rewrite Nat.min_r by lia.
Qed.

Lemma write_inv s all p : inv s all -> 1 <= length p <= buf_size ->
  exists s', w_write limit s p = Ok s' /\
    if limit <? flushed (length (all ++ p))
    then w_err s' = true /\ w_file s' = firstn limit (all ++ p)
    else inv s' (all ++ p).
Proof.
  pose proof buf_size_pos as BP.
  intros [E A F [k M] B U L] P. unfold w_write.
  assert (N : length all = buf_size * k + length (w_buf s)) by (rewrite <- A, app_length; lia).
  destruct s as [file buf err]. cbn [w_file w_buf w_err] in *. subst err.
  change (2 + length p) with (S (S (length p))). cbn [w_loop w_file w_buf w_err].
  rewrite andb_true_r.
  destruct (Nat.ltb_spec (buf_size - length buf) (length p)) as [C|C].
  - (* the buffer is filled and flushed *)
    destruct (Nat.eqb_spec (length buf) 0) as [Z|Z]; [lia|].
    set (n := Nat.min (length p) (buf_size - length buf)).
    assert (Hn : n = buf_size - length buf) by (unfold n; lia).
    unfold w_flush. cbn [w_file w_buf w_err].
    assert (LB : length (buf ++ firstn n p) = buf_size) by (rewrite app_length, firstn_length; lia).
    destruct (Nat.eqb_spec (length (buf ++ firstn n p)) 0) as [Z2|Z2]; [lia|].
    unfold disk_write. rewrite LB.
    assert (FL : flushed (length (all ++ p)) = buf_size * (k + 1)).
    { rewrite app_length, N. replace (buf_size * k + length buf + length p) with (buf_size * (k + 1) + (length p - n)) by lia.
      apply flushed_at. lia. }
    assert (SP : all ++ p = file ++ (buf ++ firstn n p) ++ skipn n p).
    { rewrite <- A. rewrite <- !app_assoc. now rewrite (firstn_skipn n p). }
    rewrite FL.
    destruct (Nat.ltb_spec limit (buf_size * (k + 1))) as [D|D].
    + rewrite Nat.min_r by lia.
      replace (limit - length file <? buf_size) with true by (symmetry; apply Nat.ltb_lt; lia).
      cbn [w_loop w_file w_buf w_err negb]. rewrite andb_false_r. cbn [rbind w_err].
      eexists; split; [reflexivity|]. cbn [w_err w_file]. split; [reflexivity|].
      rewrite SP. rewrite (firstn_app limit file). rewrite (firstn_all2 file) by lia. f_equal.
      symmetry. apply firstn_prefix. lia.
    + rewrite Nat.min_l by lia. rewrite Nat.ltb_irrefl.
      rewrite firstn_all2 by lia. rewrite (skipn_all2 (buf ++ firstn n p)) by lia.
      cbn [w_loop w_file w_buf w_err negb length]. rewrite andb_true_r.
      replace (buf_size - 0 <? length (skipn n p)) with false
        by (symmetry; apply Nat.ltb_ge; rewrite skipn_length; lia).
      cbn [rbind w_err w_file w_buf app].
      eexists; split; [reflexivity|]. rewrite SP.
      constructor; cbn [w_file w_buf w_err]; try reflexivity.
      * now rewrite <- !app_assoc.
      * rewrite <- SP, FL, app_length, LB. lia.
      * exists (k + 1). rewrite app_length, LB. lia.
      * rewrite skipn_length. lia.
      * intros _. rewrite skipn_length. lia.
      * rewrite app_length, LB. lia.
  - (* it is only copied to the buffer *)
    cbn [rbind w_err w_file w_buf]. eexists; split; [reflexivity|].
    assert (FL : flushed (length (all ++ p)) = length file).
    { rewrite app_length, N, M. rewrite <- Nat.add_assoc. apply flushed_at. lia. }
    rewrite FL, (proj2 (Nat.ltb_ge _ _)) by lia.
    constructor; cbn [w_file w_buf w_err]; try reflexivity.
    + rewrite <- A. now rewrite <- app_assoc.
    + congruence.
    + now exists k.
    + rewrite app_length. lia.
    + intros _. rewrite app_length. lia.
    + assumption.
Qed.

Lemma save_inv cs : forall s all, inv s all -> Forall (fun p => 1 <= length p <= buf_size) cs ->
  exists s', save_loop limit s cs = Ok s' /\
    if limit <? flushed (length (all ++ concat cs))
    then w_err s' = true /\ w_file s' = firstn limit (all ++ concat cs)
    else inv s' (all ++ concat cs).
Proof.
  pose proof buf_size_pos as BP.
  induction cs as [|p cs IH]; intros s all I H; cbn [save_loop concat].
  - exists s. split; [reflexivity|]. rewrite app_nil_r.
    rewrite (proj2 (Nat.ltb_ge _ _)); [assumption|]. rewrite <- (i_file _ _ I). apply I.
  - inversion H as [|? ? P H']; subst.
    destruct (write_inv s all p I P) as (s1 & -> & S1). cbn [rbind].
    rewrite app_assoc.
    destruct (Nat.ltb_spec limit (flushed (length (all ++ p)))) as [C|C].
    + destruct S1 as [S1 S2]. rewrite S1. exists s1. split; [reflexivity|].
      assert (FM : flushed (length (all ++ p)) <= flushed (length ((all ++ p) ++ concat cs)))
        by (apply flushed_mono; rewrite (app_length (all ++ p)); lia).
      rewrite (proj2 (Nat.ltb_lt _ _)) by lia. split; [assumption|].
      rewrite S2. symmetry. apply firstn_prefix. pose proof (flushed_le (length (all ++ p))). lia.
    + rewrite (i_err _ _ S1). apply IH; assumption.
Qed.
End D.


Lemma flush_test limit n :
  (limit <? flushed (84 + 50 * n)) =
  (Z.of_nat limit <? 4096 * ((83 + 50 * Z.of_nat n) / 4096))%Z.
Proof.
  pose proof buf_size_pos as BP.
  assert (Q : Z.of_nat (flushed (84 + 50 * n)) = (4096 * ((83 + 50 * Z.of_nat n) / 4096))%Z).
  { rewrite flushed_Z by lia. f_equal. f_equal. lia. }
  rewrite <- Q. destruct (Nat.ltb_spec limit (flushed (84 + 50 * n))); symmetry;
    [apply Z.ltb_lt|apply Z.ltb_ge]; lia.
Qed.

Section E.
Variable E : elem.
Let AE := ArithF64 E.

Lemma chunks_size m : Forall (fun p => 1 <= length p <= buf_size) (stl_chunks E m).
Proof.
  pose proof buf_size_pos as BP.
  unfold stl_chunks. constructor; [rewrite header_length; lia|].
  induction m as [|t m IH]; cbn [map]; constructor; [rewrite record_length; lia|assumption].
Qed.

Lemma save_spec limit m :
  saveSTL E limit m = Ok (firstn limit (stl_bytes E m), (Z.of_nat limit <? 4096 * ((83 + 50 * Z.of_nat (length m)) / 4096))%Z).
Proof.
  pose proof buf_size_pos as BP.
  rewrite <- flush_test.
  unfold saveSTL.
  destruct (save_inv limit (stl_chunks E m) (WS [] [] false) []) as (s & -> & S).
  - constructor; cbn; try reflexivity; try lia; [now exists 0|congruence].
  - apply chunks_size.
  - cbn [app] in S. change (concat (stl_chunks E m)) with (stl_bytes E m) in S.
    rewrite bytes_length in S. cbn [rbind].
    destruct (Nat.ltb_spec limit (flushed (84 + 50 * length m))) as [C|C].
    + destruct S as [S1 S2]. rewrite S1, S2. reflexivity.
    + rewrite (i_err _ _ _ S). now rewrite (flush_inv _ _ _ S).
Qed.
End E.
