(* Double precision numbers (IEEE 754 binary64, round to nearest even), as a second instance of the
   float operations of Num.v.

   Nothing in this file models a function of /repo.  It instantiates the operations that the
   sources use with the arithmetic the interpreter really uses: Flocq's binary64, with signed
   zeros, infinities, overflow and one NaN.  What a double denotes is given by [real]. *)
From Coq Require Import ZArith Bool Reals Lia.
From Flocq Require Import Core.Core IEEE754.BinarySingleNaN.
From Verif Require Import Num.

Definition f64 : Type := binary_float 53 1024.

#[global] Instance f64_prec : Prec_gt_0 53 := eq_refl.
#[global] Instance f64_emax : Prec_lt_emax 53 1024 := eq_refl.

Definition fadd : f64 -> f64 -> f64 := Bplus mode_NE.
Definition fsub : f64 -> f64 -> f64 := Bminus mode_NE.
Definition fmul : f64 -> f64 -> f64 := Bmult mode_NE.
Definition fdiv : f64 -> f64 -> f64 := Bdiv mode_NE.
Definition fsqrt : f64 -> f64 := Bsqrt mode_NE.
(* float(z) for a Python int within range, and float literals without a fraction *)
Definition fofZ (z : Z) : f64 := binary_normalize 53 1024 f64_prec f64_emax mode_NE z 0 false.

#[global] Instance F64_Num : Num f64 := {|
  nofZ := fofZ;
  nadd := fadd; nsub := fsub; nmul := fmul; ndiv := fdiv;
  nopp := (Bopp : f64 -> f64); nabs := (Babs : f64 -> f64);
  nsqrt := fsqrt;
  nfloor := (Bnearbyint mode_DN : f64 -> f64);
  nceil := (Bnearbyint mode_UP : f64 -> f64);
  nrint := (Bnearbyint mode_NE : f64 -> f64);
  ntoZ := (Btrunc : f64 -> Z);
  nnan := (B754_nan : f64);
  nltb := (Bltb : f64 -> f64 -> bool);
  nleb := (Bleb : f64 -> f64 -> bool);
  neqb := (Beqb : f64 -> f64 -> bool);
  nisnan := (is_nan : f64 -> bool);
  nisfin := (is_finite : f64 -> bool)
|}.

(* the number a finite double stands for; both zeros stand for 0 *)
Definition val (x : f64) : R := B2R x.

Definition real (x : f64) : XR :=
  match x with
  | B754_nan => NaN
  | B754_infinity false => PInf
  | B754_infinity true => NInf
  | _ => Fin (val x)
  end.

(* the double nearest to a real number *)
Definition rnd (r : R) : R := round radix2 (SpecFloat.fexp 53 1024) (round_mode mode_NE) r.
