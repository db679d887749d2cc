(* interp_climatology in double precision *)
From Coq Require Import ZArith List Bool Reals Lra Lia.
From Flocq Require Import Core.Core IEEE754.BinarySingleNaN.
From Verif Require Import Num Wrangling Float Spec_Float Spec_Interp Spec_FloatInterp Proofs_FloatInterp3 Proofs_FloatInterpEx.
Import ListNotations.
Local Open Scope R_scope.

(* ---- C142 ---- *)
Theorem C142_near : forall gs gt gp : array2 f64, same_shape64 gs gt -> same_shape64 gt gp -> sea_grid gs gt gp ->
  forall float, sea_levels float ->
  forall r, interp_climatology gs gt gp float = Ok r -> Forall2 (row_near gs gt gp) float r.
Proof. exact interp_near. Qed.
Print Assumptions C142_near.
Theorem C142_raises : forall gs gt gp : array2 f64, same_shape64 gs gt -> same_shape64 gt gp -> sea_grid gs gt gp ->
  forall float, sea_levels float ->
  forall e, interp_climatology gs gt gp float = Raise e <->
    e = ValueError /\ (a_cols gs = 0%nat \/
      (some_sample (reals gs) (reals gt) (reals gp) /\
       exists q, In q float /\ troublesome (reals gs) (reals gt) (reals gp) (real3 q))).
Proof. exact interp64_raises. Qed.
Print Assumptions C142_raises.
Example C142_witness : same_shape64 two_sal two_theta /\ same_shape64 two_theta two_pres
  /\ sea_grid two_sal two_theta two_pres /\ sea_levels two_float
  /\ match interp_climatology two_sal two_theta two_pres two_float with
     | Ok [[(s1, p1)]; [(s2, p2)]; [(s3, p3)]] =>
         neqb s2 (nq 354 10) && nltb (nq 2416 10) p2 && nisnan s3 && nisnan p3
         && nltb (nq 351 10) s1 && nltb s1 (nq 354 10) && nltb (nq 1045 10) p1 && nltb p1 (nq 1046 10)
     | _ => false end = true.
Proof.
  exact (conj (two_shape _ _ _ _) (conj (two_shape _ _ _ _) (conj two_grid (conj two_levels two_run)))).
Qed.
(* the interpolated pressure need not lie between the pressures of the samples *)
Theorem C142_pressure_range_refuted : exists gs gt gp q o, sea_grid gs gt gp /\ sea_levels [q]
  /\ interp_climatology gs gt gp [q] = Ok [[o]] /\ finite (snd o)
  /\ forall a, In a (samples64 gs gt gp 0) -> p_pres a < Float.val (snd o).
Proof. exact pressure_outside_full. Qed.
Print Assumptions C142_pressure_range_refuted.
