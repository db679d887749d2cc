(* Specification vocabulary for the properties in double precision.  Numbers are compared as reals:
   [val] is what a finite double stands for. *)
From Coq Require Import ZArith List Reals Permutation Sorted.
From Flocq Require Import Core.Core IEEE754.BinarySingleNaN.
From Verif Require Import Num Float Stats Utilities Finders.
Import ListNotations.
Local Open Scope R_scope.

(* neither infinite nor NaN *)
Definition finite (x : f64) : Prop := is_finite x = true.

(* longitudes *)
Definition in360 (x : f64) : Prop := finite x /\ -360 <= val x <= 360.
(* half the distance of neighbouring doubles around 360: about 2.8e-14 degrees *)
Definition half_ulp : R := bpow radix2 (-45).
(* the same meridian up to that distance *)
Definition near_meridian (a b : R) : Prop := exists k : Z, Rabs (b - (a + 360 * IZR k)) <= half_ulp.

(* not within 1e-12 of a multiple of ten *)
Definition tiny : R := / 1000000000000.
Definition away (r : R) : Prop := forall k : Z, tiny < Rabs (r - 10 * IZR k).

(* zero or more, or plus infinity; not NaN *)
Definition nonneg (x : f64) : Prop := finite x /\ 0 <= val x \/ x = B754_infinity false.

(* the coordinates of a point and a scale that can be divided by *)
Definition good_point (p : point f64) : Prop := finite (p_lat p) /\ finite (p_long p) /\ finite (p_date p).
Definition good_scale (s : f64) : Prop := finite s /\ val s <> 0.

(* an exponential function of doubles: between 0 and 1 for arguments that are not positive, 1 at -0.0 *)
Definition exp_ok (E : NumT f64) : Prop :=
  (forall t, nonneg t -> finite (@nexp _ E (nopp t)) /\ 0 <= val (@nexp _ E (nopp t)) <= 1)
  /\ val (@nexp _ E (nopp (nofZ 0))) = 1.

(* fewer than 2^53 elements: their number is a double *)
Definition countable {A} (l : list A) : Prop := (Z.of_nat (length l) < 2 ^ 53)%Z.

(* ---- find_besthist ---- *)
(* numpy's generator in doubles: finite numbers in [0,1), as many as asked for *)
Definition unit_draw (u : f64) : Prop := finite u /\ 0 <= val u < 1.
Definition rand_ok64 {rng} (rand : rng -> nat -> list f64 * rng) : Prop :=
  forall g k, length (fst (rand g k)) = k /\ Forall unit_draw (fst (rand g k)).

(* a does not come after b in numpy's order: not larger, and NaN only before NaN *)
Definition not_after (a b : f64) : Prop := nltb b a = false /\ (nisnan a = true -> nisnan b = true).
(* an argsort: a permutation of the positions along which no value comes after a later one *)
Definition argsort_ok64 (f : list f64 -> list nat) : Prop :=
  forall l, Permutation (f l) (seq 0 (length l))
    /\ forall i j, (i <= j < length l)%nat ->
         not_after (nth (nth i (f l) 0%nat) l nnan) (nth (nth j (f l) 0%nat) l nnan).

(* the two results compare so, both being numbers *)
Definition ranked (a b : res f64) : Prop := exists u v, a = Ok u /\ b = Ok v /\ not_after u v.

(* a scale whose square is not rounded to zero; the upper bound, and the one on coordinates, keep
   the ** of Python floats from raising OverflowError, where the model has an infinity *)
Definition safe_scale (s : f64) : Prop := finite s /\ bpow radix2 (-500) <= Rabs (val s) <= bpow radix2 500.
Definition moderate (x : f64) : Prop := finite x /\ Rabs (val x) <= bpow radix2 500.

(* the arguments of find_besthist other than the casts and their number *)
Record search := mkSearch {
  s_lat : f64; s_long : f64; s_date : f64; s_z : f64;
  s_latL : f64; s_latS : f64; s_longL : f64; s_longS : f64;
  s_phiL : f64; s_phiS : f64; s_ageL : f64; s_ageS : f64; s_use : Z }.

Section Search.
  Context {E : NumT f64}.
  (* potential vorticities: 0 unless the option is 1 *)
  Definition s_pv_float (p : search) : res f64 :=
    if Z.eqb (s_use p) 1 then potential_vorticity (s_lat p) (s_z p) else Ok (nofZ 0).
  Definition s_pv_cast (p : search) (c : cast f64) : res f64 :=
    if Z.eqb (s_use p) 1 then potential_vorticity (c_lat c) (c_z c) else Ok (nofZ 0).
  (* find_ellipse for one cast *)
  Definition s_ellipse (p : search) (c : cast f64) : res f64 :=
    let* pf := s_pv_float p in let* pc := s_pv_cast p c in
    find_ellipse (c_long c) (s_long p) (s_longL p) (c_lat c) (s_lat p) (s_latL p) (s_phiL p) pc pf.
  (* spatial_correlation for one cast, with the argument order of find_besthist *)
  Definition s_large (p : search) (c : cast f64) : res f64 :=
    let* pf := s_pv_float p in let* pc := s_pv_cast p c in
    spatial_correlation (c_long c) (s_long p) (s_longL p) (c_lat c) (s_lat p) (s_latL p)
      (c_date c) (s_date p) (s_ageL p) pc pf (s_phiL p).
  Definition s_small (p : search) (c : cast f64) : res f64 :=
    let* pf := s_pv_float p in let* pc := s_pv_cast p c in
    spatial_correlation (c_long c) (s_long p) (s_longS p) (c_lat c) (s_lat p) (s_latS p)
      (c_date c) (s_date p) (s_ageS p) pc pf (s_phiS p).

  Definition search_run {rng} (seed : Z -> rng) (rand : rng -> nat -> list f64 * rng) (qs : list f64 -> list nat)
      (p : search) (grid : list (cast f64)) (m : Z) (g0 : rng) : res (list nat) * rng :=
    find_besthist seed rand qs (s_lat p) (s_long p) (s_date p) (s_z p) (s_latL p) (s_latS p) (s_longL p) (s_longS p)
      (s_phiL p) (s_phiS p) (s_ageL p) (s_ageS p) (s_use p) grid m g0.
End Search.

Definition no_cast : cast f64 := mkCast nnan nnan nnan nnan.
(* the positions of the casts for which find_ellipse returns less than 1, ascending *)
Definition inside64 {E : NumT f64} (p : search) (grid : list (cast f64)) (ie : list nat) : Prop :=
  StronglySorted lt ie
  /\ forall i, In i ie <-> (i < length grid)%nat /\ exists e, s_ellipse p (nth i grid no_cast) = Ok e /\ nltb e (nofZ 1) = true.

Definition safe_search (p : search) : Prop :=
  Forall safe_scale [s_latL p; s_latS p; s_longL p; s_longS p; s_ageL p; s_ageS p]
  /\ Forall moderate [s_lat p; s_long p; s_date p].
Definition safe_cast (c : cast f64) : Prop := Forall moderate [c_lat c; c_long c; c_date c].
