(* interp_climatology in double precision: how close its results are to the exact interpolation.
   The arrays are read as the numbers they hold, and compared with Spec_Interp. *)
From Coq Require Import ZArith List Reals.
From Flocq Require Import Core.Core IEEE754.BinarySingleNaN.
From Verif Require Import Num Float Spec_Float Wrangling Spec_Interp.
Import ListNotations.
Local Open Scope R_scope.

Definition reals (a : array2 f64) : array2 XR := mkArray2 XR (a_rows a) (a_cols a) (fun i j => real (a_get a i j)).
Definition real3 (q : f64 * f64 * f64) : XR * XR * XR := let '(s, t, p) := q in (real s, real t, real p).
Definition nan2 : f64 * f64 := (nnan, nnan).
Definition same_shape64 (a b : array2 f64) : Prop := a_rows a = a_rows b /\ a_cols a = a_cols b.
(* the complete samples of station j *)
Definition samples64 (gs gt gp : array2 f64) : nat -> list sample := samples (reals gs) (reals gt) (reals gp).

(* the range of the sea, and beyond; a temperature is zero or not extremely small *)
Definition sea_sample (q : sample) : Prop :=
  Rabs (p_sal q) <= 64 /\ Rabs (p_theta q) <= 64 /\ Rabs (p_pres q) <= 16384
  /\ (p_theta q = 0 \/ bpow radix2 (-400) <= Rabs (p_theta q)).
Definition sea_grid (gs gt gp : array2 f64) : Prop :=
  forall j q, (j < a_cols gs)%nat -> In q (samples64 gs gt gp j) -> sea_sample q.
Definition sea_levels (float : list (f64 * f64 * f64)) : Prop :=
  forall q a, In q float -> level_of (real3 q) = Some a -> sea_sample a.

(* within a factor two of each other, both positive *)
Definition comparable (a b : R) : Prop := a / 2 <= b <= 2 * a.
Definition eps_sal : R := / 1000000000000.
Definition eps_pres : R := / 10000000000.

(* what a station gives: the interpolation of an enclosing pair of samples, up to rounding, whose
   pressure is closest up to rounding; NaN only when no pair encloses the temperature *)
Definition near_gives (l : list sample) (v p : R) (o : f64 * f64) : Prop :=
  (exists k, encloses l v k /\ sloped l k
     /\ finite (fst o) /\ Rabs (Float.val (fst o) - between p_sal l v k) <= eps_sal
     /\ finite (snd o) /\ Rabs (Float.val (snd o) - between p_pres l v k) <= eps_pres
     /\ (comparable (at_ p_sal l k) (at_ p_sal l (S k)) ->
         Rmin (at_ p_sal l k) (at_ p_sal l (S k)) <= Float.val (fst o) <= Rmax (at_ p_sal l k) (at_ p_sal l (S k)))
     /\ forall k', encloses l v k' -> sloped l k' ->
          Rabs (between p_pres l v k - p) <= Rabs (between p_pres l v k' - p) + 2 * eps_pres)
  \/ ((forall k, ~ encloses l v k) /\ o = nan2).
Definition row_near (gs gt gp : array2 f64) (q : f64 * f64 * f64) (row : list (f64 * f64)) : Prop :=
  length row = a_cols gs /\
  forall j, (j < a_cols gs)%nat ->
    match level_of (real3 q) with
    | None => nth j row nan2 = nan2
    | Some (_, t, p) => near_gives (samples64 gs gt gp j) t p (nth j row nan2)
    end.
