(** * Exact real arithmetic as an instance of [Arith] *)
From Coq Require Import Reals ZArith NArith Bool Lra Lia.
From Flocq Require Import Core.Raux Core.Generic_fmt Core.Round_NE.
From Verif Require Import Arith.
Open Scope R_scope.

Definition Rltb (x y : R) : bool := if Rlt_dec x y then true else false.
Definition Rleb (x y : R) : bool := if Rle_dec x y then true else false.
Definition Reqb (x y : R) : bool := if Req_EM_T x y then true else false.

(** decimal with three places, round half to even, sign kept *)
Definition Rfix3 (x : R) : fix3 := F3 (Rltb x 0) (Z.to_N (ZnearestE (Rabs x * 1000))).

#[global] Instance ArithR : Arith := {|
  num := R;
  nadd := Rplus; nsub := Rminus; nmul := Rmult; ndiv := Rdiv; nopp := Ropp;
  nabs := Rabs; nsqrt := sqrt;
  nltb := Rltb; nleb := Rleb; neqb := Reqb;
  nmin := Rmin; nmax := Rmax;
  nfloor := fun x => IZR (Zfloor x);
  nceil := fun x => IZR (Zceil x);
  ntoZ := Ztrunc;
  nlit := fun p q => IZR p / IZR (Zpos q);
  npi := PI; nsin := sin; ncos := cos; nacos := acos;
  nisnan := fun _ => false;
  nfix3 := Rfix3
|}.

Lemma Rltb_spec x y : reflect (x < y) (Rltb x y).
Proof. unfold Rltb; destruct (Rlt_dec x y); constructor; assumption. Qed.
Lemma Rleb_spec x y : reflect (x <= y) (Rleb x y).
Proof. unfold Rleb; destruct (Rle_dec x y); constructor; assumption. Qed.
Lemma Reqb_spec x y : reflect (x = y) (Reqb x y).
Proof. unfold Reqb; destruct (Req_EM_T x y); constructor; assumption. Qed.

Lemma Rltb_true x y : Rltb x y = true <-> x < y.
Proof. destruct (Rltb_spec x y); split; intros; auto; discriminate. Qed.
Lemma Rltb_false x y : Rltb x y = false <-> y <= x.
Proof. destruct (Rltb_spec x y); split; intros; auto; try discriminate; lra. Qed.
Lemma Rleb_true x y : Rleb x y = true <-> x <= y.
Proof. destruct (Rleb_spec x y); split; intros; auto; discriminate. Qed.
Lemma Rleb_false x y : Rleb x y = false <-> y < x.
Proof. destruct (Rleb_spec x y); split; intros; auto; try discriminate; lra. Qed.
Lemma Reqb_true x y : Reqb x y = true <-> x = y.
Proof. destruct (Reqb_spec x y); split; intros; auto; discriminate. Qed.
Lemma Reqb_false x y : Reqb x y = false <-> x <> y.
Proof. destruct (Reqb_spec x y); split; intros; auto; try discriminate; contradiction. Qed.

Lemma lit1 z : IZR z / 1 = IZR z.
Proof. field. Qed.

(** Expose the real operations behind the class projections. *)
Ltac rcbn := cbn [num nadd nsub nmul ndiv nopp nabs nsqrt nltb nleb neqb nmin nmax
  nfloor nceil ntoZ nlit npi nsin ncos nacos nisnan nfix3 ArithR n0 n1 n2 nhalf nofZ nsq] in *;
  rewrite ?lit1 in *.

(** Turn boolean real comparisons into propositions. *)
Ltac rbool := repeat match goal with
  | H : Rltb _ _ = true |- _ => apply Rltb_true in H
  | H : Rltb _ _ = false |- _ => apply Rltb_false in H
  | H : Rleb _ _ = true |- _ => apply Rleb_true in H
  | H : Rleb _ _ = false |- _ => apply Rleb_false in H
  | H : Reqb _ _ = true |- _ => apply Reqb_true in H
  | H : Reqb _ _ = false |- _ => apply Reqb_false in H
  | H : (_ && _)%bool = true |- _ => apply andb_true_iff in H; destruct H
  | H : (_ || _)%bool = false |- _ => apply orb_false_iff in H; destruct H
  | H : negb _ = true |- _ => apply negb_true_iff in H
  | H : negb _ = false |- _ => apply negb_false_iff in H
  end.
