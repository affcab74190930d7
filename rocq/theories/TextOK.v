(** * The few facts about printed numbers the G-code proofs need

    They hold of float64 and of exact arithmetic. *)
From Coq Require Import Reals ZArith NArith Bool Lra Lia.
From Flocq Require Import Core.Raux Core.Generic_fmt Core.Round_NE.
From Flocq Require Import IEEE754.BinarySingleNaN.
From Verif Require Import Arith ArithR ArithF64 GcodeSpec GcodeInstr.

Class TextOK (A : Arith) : Prop := {
  tok_0 : V n0 = VFin 0;
  tok_60 : V (nofZ 60) = VZ 60;
  tok_add0 : forall x, V (x + n0)%num = V x;
  tok_4000 : (nofZ 4000 <? n0)%num = false
}.

#[global] Instance TextOK_F64 E : TextOK (ArithF64 E).
Proof.
  constructor; try (vm_compute; reflexivity).
  intros [s|s| |s m e b]; try (destruct s; reflexivity); reflexivity.
Qed.

Lemma Rfix3_Z n : (0 <= n)%Z -> Rfix3 (IZR n) = F3 false (Z.to_N (n * 1000)).
Proof.
  intros H. unfold Rfix3.
  assert (Rltb (IZR n) 0 = false) as -> by (apply Rltb_false; now apply IZR_le).
  rewrite Rabs_pos_eq by (now apply IZR_le).
  rewrite <- mult_IZR. now rewrite (Zrnd_IZR ZnearestE).
Qed.

#[global] Instance TextOK_R : TextOK ArithR.
Proof.
  constructor.
  - unfold V. rcbn. now rewrite (Rfix3_Z 0).
  - unfold V. rcbn. now rewrite (Rfix3_Z 60).
  - intros x. unfold V. rcbn. now rewrite Rplus_0_r.
  - rcbn. apply Rltb_false. now apply IZR_le.
Qed.
