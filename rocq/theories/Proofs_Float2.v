(* Rounding to double precision: monotone, exact on small integers, and with a bounded error;
   what each operation on doubles returns when nothing overflows. *)
From Coq Require Import ZArith List Bool Reals Lra Lia.
From Flocq Require Import Core.Core IEEE754.BinarySingleNaN.
From Verif Require Import Num Np NumFacts Float Spec_Float Proofs_Float1.
Import ListNotations.
Local Open Scope R_scope.

Notation fexp64 := (SpecFloat.fexp 53 1024).

#[global] Instance fexp64_valid : Valid_exp fexp64 := fexp_correct 53 1024 f64_prec.
#[global] Instance fexp64_mono : Monotone_exp fexp64 := fexp_monotone 53 1024.
#[global] Instance rnd_valid : Valid_rnd (round_mode mode_NE) := valid_rnd_round_mode mode_NE.

Lemma rnd_le a b : a <= b -> rnd a <= rnd b.
Proof. apply round_le; auto with typeclass_instances. Qed.

Lemma rnd_0 : rnd 0 = 0.
Proof. apply round_0; auto with typeclass_instances. Qed.

Lemma rnd_opp r : rnd (- r) = - rnd r.
Proof. unfold rnd. cbn [round_mode]. apply round_NE_opp. Qed.

Lemma rnd_abs r : Rabs (rnd r) = rnd (Rabs r).
Proof.
  unfold Rabs. destruct (Rcase_abs r) as [N|P].
  - rewrite rnd_opp. destruct (Rcase_abs (rnd r)) as [?|Q]; [reflexivity|].
    assert (rnd r <= 0) by (rewrite <- rnd_0; apply rnd_le; lra). lra.
  - assert (0 <= rnd r) by (rewrite <- rnd_0; apply rnd_le; lra).
    destruct (Rcase_abs (rnd r)); lra.
Qed.

Lemma rnd_id (x : f64) : rnd (val x) = val x.
Proof. apply round_generic; auto with typeclass_instances. apply generic_format_B2R. Qed.

Lemma rnd_pow e : (-1074 <= e <= 1023)%Z -> rnd (bpow radix2 e) = bpow radix2 e.
Proof.
  intros E. apply round_generic; auto with typeclass_instances.
  apply generic_format_bpow. unfold SpecFloat.fexp, SpecFloat.emin. lia.
Qed.

Lemma rnd_format m e : (Z.abs m < 2 ^ 53)%Z -> (-1074 <= e)%Z ->
  rnd (IZR m * bpow radix2 e) = IZR m * bpow radix2 e.
Proof.
  intros M E. apply round_generic; auto with typeclass_instances.
  change (IZR m * bpow radix2 e) with (F2R (Float radix2 m e)).
  apply generic_format_FLT. exists (Float radix2 m e); cbn [Fnum Fexp]; auto.
Qed.

Lemma rnd_IZR z : (Z.abs z < 2 ^ 53)%Z -> rnd (IZR z) = IZR z.
Proof.
  intros Hz. pose proof (rnd_format z 0 Hz ltac:(lia)) as E. cbn [bpow] in E.
  now rewrite Rmult_1_r in E.
Qed.

Lemma rnd_le_Z r z : (Z.abs z < 2 ^ 53)%Z -> r <= IZR z -> rnd r <= IZR z.
Proof. intros Hz L. rewrite <- (rnd_IZR z Hz). now apply rnd_le. Qed.
Lemma rnd_ge_Z r z : (Z.abs z < 2 ^ 53)%Z -> IZR z <= r -> IZR z <= rnd r.
Proof. intros Hz L. rewrite <- (rnd_IZR z Hz). now apply rnd_le. Qed.

(* the rounding error of numbers up to a power of two *)
Lemma rnd_err r e : (-1021 <= e <= 1023)%Z -> Rabs r <= bpow radix2 e ->
  Rabs (rnd r - r) <= bpow radix2 (e - 54).
Proof.
  intros E [L|Q].
  - assert (U : Rabs (rnd r - r) <= / 2 * ulp radix2 fexp64 r).
    { unfold rnd. cbn [round_mode]. apply error_le_half_ulp; auto with typeclass_instances. }
    assert (V : ulp radix2 fexp64 r <= bpow radix2 (e - 53)).
    { destruct (Req_dec r 0) as [->|N].
      - change (ulp radix2 (FLT_exp (-1074) 53) 0 <= bpow radix2 (e - 53)).
        rewrite ulp_FLT_0; [|auto with typeclass_instances]. apply bpow_le. lia.
      - rewrite ulp_neq_0 by exact N. apply bpow_le. unfold cexp.
        assert (mag radix2 r <= e)%Z by (apply mag_le_bpow; assumption).
        unfold SpecFloat.fexp, SpecFloat.emin. lia. }
    replace (e - 54)%Z with (-1 + (e - 53))%Z by lia. rewrite bpow_plus.
    change (bpow radix2 (-1)) with (/ 2). lra.
  - assert (Z : rnd r = r).
    { unfold Rabs in Q. destruct (Rcase_abs r).
      - replace r with (- bpow radix2 e) by lra. rewrite rnd_opp, rnd_pow by lia. lra.
      - replace r with (bpow radix2 e) by lra. apply rnd_pow. lia. }
    rewrite Z. replace (r - r) with 0 by ring. rewrite Rabs_R0. apply bpow_ge_0.
Qed.

Lemma rnd_bound r e : (-1021 <= e <= 1023)%Z -> Rabs r <= bpow radix2 e ->
  Rabs (rnd r) <= bpow radix2 e.
Proof. intros E L. rewrite rnd_abs, <- (rnd_pow e) by lia. now apply rnd_le. Qed.

(* anything far below the overflow threshold *)
Definition big : R := bpow radix2 1000.

Lemma big_ok r : Rabs r <= big -> Rlt_bool (Rabs (rnd r)) (bpow radix2 1024) = true.
Proof.
  intros L. apply Rlt_bool_true. apply Rle_lt_trans with big.
  - apply rnd_bound; [lia|exact L].
  - apply bpow_lt. lia.
Qed.

Lemma big_1000 : 1000000 <= big.
Proof.
  apply Rle_trans with (bpow radix2 20); [|apply bpow_le; lia].
  change (bpow radix2 20) with (IZR (2 ^ 20)). apply IZR_le. lia.
Qed.

Lemma add_fin x y : finite x -> finite y -> Rabs (val x + val y) <= big ->
  finite (nadd x y) /\ val (nadd x y) = rnd (val x + val y).
Proof.
  intros Fx Fy L. pose proof (Bplus_correct 53 1024 _ _ mode_NE x y Fx Fy) as C.
  fold (val x) in C. fold (val y) in C. fold (rnd (val x + val y)) in C. rewrite (big_ok _ L) in C. now destruct C as (A & B & _).
Qed.

Lemma sub_fin x y : finite x -> finite y -> Rabs (val x - val y) <= big ->
  finite (nsub x y) /\ val (nsub x y) = rnd (val x - val y).
Proof.
  intros Fx Fy L. pose proof (Bminus_correct 53 1024 _ _ mode_NE x y Fx Fy) as C.
  fold (val x) in C. fold (val y) in C. fold (rnd (val x - val y)) in C. rewrite (big_ok _ L) in C. now destruct C as (A & B & _).
Qed.

Lemma mul_fin x y : finite x -> finite y -> Rabs (val x * val y) <= big ->
  finite (nmul x y) /\ val (nmul x y) = rnd (val x * val y).
Proof.
  intros Fx Fy L. pose proof (Bmult_correct 53 1024 _ _ mode_NE x y) as C.
  fold (val x) in C. fold (val y) in C. fold (rnd (val x * val y)) in C. rewrite (big_ok _ L) in C. destruct C as (A & B & _).
  split; [|exact A]. unfold finite. change (nmul x y) with (Bmult mode_NE x y). rewrite B.
  now rewrite Fx, Fy.
Qed.

Lemma div_fin x y : finite x -> val y <> 0 -> Rabs (val x / val y) <= big ->
  finite (ndiv x y) /\ val (ndiv x y) = rnd (val x / val y).
Proof.
  intros Fx Ny L. pose proof (Bdiv_correct 53 1024 _ _ mode_NE x y Ny) as C.
  fold (val x) in C. fold (val y) in C. fold (rnd (val x / val y)) in C. rewrite (big_ok _ L) in C. destruct C as (A & B & _).
  split; [|exact A]. unfold finite. change (ndiv x y) with (Bdiv mode_NE x y). rewrite B.
  exact Fx.
Qed.

Lemma sqrt_fin x : finite x -> 0 <= val x ->
  finite (nsqrt x) /\ val (nsqrt x) = rnd (sqrt (val x)).
Proof.
  intros Fx P. pose proof (Bsqrt_correct 53 1024 _ _ mode_NE x) as (A & B & _).
  split; [|exact A]. unfold finite. change (nsqrt x) with (Bsqrt mode_NE x). rewrite B.
  destruct x as [s|s| |[] m e H]; try discriminate Fx; try reflexivity.
  exfalso. revert P. apply Rlt_not_le. apply F2R_lt_0. reflexivity.
Qed.

Lemma ofZ_fin z : (Z.abs z < 2 ^ 53)%Z -> finite (nofZ z) /\ val (nofZ z) = IZR z.
Proof.
  intros Hz. pose proof (binary_normalize_correct 53 1024 _ _ mode_NE z 0 false) as C.
  cbv zeta in C. fold (rnd (F2R (Float radix2 z 0))) in C.
  replace (F2R (Float radix2 z 0)) with (IZR z) in C
    by (unfold F2R; cbn [Fnum Fexp bpow]; ring).
  assert (L : Rabs (IZR z) <= big).
  { rewrite <- abs_IZR. apply Rle_trans with (IZR (2 ^ 53)); [apply IZR_le; lia|].
    change (IZR (2 ^ 53)) with (bpow radix2 53). apply bpow_le. lia. }
  rewrite (big_ok _ L) in C. destruct C as (A & B & _). split; [exact B|].
  rewrite <- (rnd_IZR z Hz). exact A.
Qed.
