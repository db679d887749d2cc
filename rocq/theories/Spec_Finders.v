(* Specification vocabulary for the properties of pyowc/core/finders.py *)
From Coq Require Import ZArith List Reals Lra Permutation Sorted.
From Verif Require Import Num Finders Spec_Utilities.
Import ListNotations.
Local Open Scope R_scope.

(* squared distance of find_ellipse: sizes are tripled *)
Definition ellipse2 (dlong clong slong dlat clat slat phi dpv cpv : R) : R :=
  ((dlong - clong) / (3 * slong)) ^ 2 + ((dlat - clat) / (3 * slat)) ^ 2
  + vorticity_distance2 phi dpv cpv.

(* barotropic potential vorticity with the floor value at the equator *)
Definition vort (lat z : R) : R :=
  if Req_EM_T (sin (lat * PI / 180)) 0 then 1 / 100000
  else 2 * (7292 / 1000) / 100000 * sin (lat * PI / 180) / z.

(* The float, the scales and the historical casts as reals *)
Record problem := mkProblem {
  b_lat : R; b_long : R; b_date : R; b_z : R;
  b_latL : R; b_latS : R; b_longL : R; b_longS : R;
  b_phiL : R; b_phiS : R; b_ageL : R; b_ageS : R;
  b_use : Z }.
(* the PV option is on for the flag value 1 only *)
Definition b_pv (p : problem) : bool := Z.eqb (b_use p) 1.

Definition scales_ok (p : problem) : Prop :=
  b_latL p <> 0 /\ b_latS p <> 0 /\ b_longL p <> 0 /\ b_longS p <> 0 /\ b_ageL p <> 0 /\ b_ageS p <> 0
  /\ (b_pv p = true -> b_phiL p <> 0 /\ b_phiS p <> 0 /\ b_z p <> 0).
Definition depths_ok (p : problem) (grid : list (cast R)) : Prop :=
  b_pv p = true -> forall c, In c grid -> c_z c <> 0.

Definition vort_float (p : problem) : R := if b_pv p then vort (b_lat p) (b_z p) else 0.
Definition vort_cast (p : problem) (c : cast R) : R := if b_pv p then vort (c_lat c) (c_z c) else 0.

(* the cast lies strictly inside the large ellipse around the float *)
Definition inside (p : problem) (c : cast R) : Prop :=
  ellipse2 (c_long c) (b_long p) (b_longL p) (c_lat c) (b_lat p) (b_latL p)
           (b_phiL p) (vort_cast p c) (vort_float p) < 1.

(* separations by which casts are ranked (no PV term) *)
Definition sep_large (p : problem) (c : cast R) : R :=
  scaled_distance2 (c_long c) (b_long p) (b_longL p) (c_lat c) (b_lat p) (b_latL p)
                   (c_date c) (b_date p) (b_ageL p).
Definition sep_small (p : problem) (c : cast R) : R :=
  scaled_distance2 (c_long c) (b_long p) (b_longS p) (c_lat c) (b_lat p) (b_latS p)
                   (c_date c) (b_date p) (b_ageS p).

(* numpy's generator: numbers in [0,1), as many as asked for *)
Definition rand_ok {rng} (rand : rng -> nat -> list XR * rng) : Prop :=
  forall g k, exists us, fst (rand g k) = map Fin us /\ length us = k /\ Forall (fun u => 0 <= u < 1) us.

(* an argsort: a permutation of the positions along which the values do not decrease *)
Definition argsort_ok (f : list XR -> list nat) : Prop :=
  forall l, Permutation (f l) (seq 0 (length l)) /\
    forall vs, l = map Fin vs -> forall i j, (i <= j < length l)%nat ->
      nth (nth i (f l) 0%nat) vs 0 <= nth (nth j (f l) 0%nat) vs 0.

(* separations with the PV term at its proper place *)
Definition sep_large_pv (p : problem) (c : cast R) : R :=
  sep_large p c + vorticity_distance2 (b_phiL p) (vort_cast p c) (vort_float p).
Definition sep_small_pv (p : problem) (c : cast R) : R :=
  sep_small p c + vorticity_distance2 (b_phiS p) (vort_cast p c) (vort_float p).

(* separations with the historical vorticity as the scale and the scale as a vorticity *)
Definition rank_large (p : problem) (c : cast R) : R :=
  sep_large p c + (if b_pv p then vorticity_distance2 (vort_cast p c) (vort_float p) (b_phiL p) else 0).
Definition rank_small (p : problem) (c : cast R) : R :=
  sep_small p c + (if b_pv p then vorticity_distance2 (vort_cast p c) (vort_float p) (b_phiS p) else 0).

(* ie lists, in ascending order, the positions of the casts inside the large ellipse *)
Definition dcastR : cast R := mkCast 0 0 0 0.
Definition inside_list (p : problem) (grid : list (cast R)) (ie : list nat) : Prop :=
  StronglySorted lt ie /\
  forall i, In i ie <-> (i < length grid)%nat /\ inside p (nth i grid dcastR).

(* find_besthist on real inputs *)
Definition fcast (c : cast R) : cast XR := mkCast (Fin (c_lat c)) (Fin (c_long c)) (Fin (c_date c)) (Fin (c_z c)).
Definition besthist {rng} (seed : Z -> rng) (rand : rng -> nat -> list XR * rng) (qs : list XR -> list nat)
    (p : problem) (grid : list (cast R)) (m : Z) (g0 : rng) : res (list nat) * rng :=
  find_besthist seed rand qs (Fin (b_lat p)) (Fin (b_long p)) (Fin (b_date p)) (Fin (b_z p))
    (Fin (b_latL p)) (Fin (b_latS p)) (Fin (b_longL p)) (Fin (b_longS p)) (Fin (b_phiL p)) (Fin (b_phiS p))
    (Fin (b_ageL p)) (Fin (b_ageS p)) (b_use p) (map fcast grid) m g0.

(* position k among n is the one nearest to u*n - 1 (0 for u*n <= 1/2) *)
Definition drawn (n : nat) (u : R) (k : nat) : Prop :=
  (k < n)%nat /\ (Rabs (INR k - (u * INR n - 1)) <= 1 / 2 \/ k = 0%nat /\ u * INR n <= 1 / 2).

(* ceil(m/3) for m >= 0 *)
Definition third (m : Z) : Z := ((m + 2) / 3)%Z.

(* latitude/longitude extent of WMO box number n (1..648): 36 columns of 18 boxes, southwards *)
Definition box_lon (n : nat) : Z := (10 * Z.of_nat ((n - 1) / 18))%Z.
Definition box_latN (n : nat) : Z := (90 - 10 * Z.of_nat ((n - 1) mod 18))%Z.
Definition box_covers (n : nat) (lon lat : R) : Prop :=
  (1 <= n <= 648)%nat
  /\ (exists k : Z, IZR (box_lon n) <= lon + 360 * IZR k <= IZR (box_lon n) + 10)
  /\ IZR (box_latN n) - 10 <= lat <= IZR (box_latN n).

(* offsets of the 25 look-up points, in degrees and in boxes *)
Definition offsets : list R := [1/100; 1001/100; -999/100; 2001/100; -1999/100].
Definition shifts : list Z := [0; 1; -1; 2; -2]%Z.

(* ---- find_10thetas ---- *)

(* the samples that are not missing *)
Fixpoint somes {A} (l : list (option A)) : list A :=
  match l with [] => [] | Some x :: r => x :: somes r | None :: r => somes r end.

(* a sample is a number or missing *)
Definition oX (o : option R) : XR := match o with Some r => Fin r | None => NaN end.

Record series := mkSeries {
  d_sal : nat -> nat -> option R; d_ptmp : nat -> nat -> option R;
  d_pres : nat -> nat -> option R; d_la : nat -> nat -> option R;      (* [level] [profile] *)
  d_tlt : option R; d_tgt : option R; d_plt : option R; d_pgt : option R }.

(* a value is inside the window: not above "lt", not below "gt"; outside the band if lt < gt *)
Definition window_ok (lt gt : option R) (x : R) : Prop :=
  match lt, gt with
  | None, None => True
  | Some l, None => x <= l
  | None, Some g => g <= x
  | Some l, Some g => (l < g /\ (x <= l \/ g <= x)) \/ (g <= l /\ g <= x <= l)
  end.

Definition kept (d : series) (i j : nat) : Prop :=
  d_la d i j <> None
  /\ (forall x, d_ptmp d i j = Some x -> window_ok (d_tlt d) (d_tgt d) x)
  /\ (forall x, d_pres d i j = Some x -> window_ok (d_plt d) (d_pgt d) x).
(* a usable temperature *)
Definition sample (d : series) (i j : nat) (x : R) : Prop := kept d i j /\ d_ptmp d i j = Some x.

Definition thetas_run interp1d (d : series) (nr nc : nat) (pct : R) :=
  find_10thetas (T := XR) interp1d nr nc (fun i j => oX (d_sal d i j)) (fun i j => oX (d_ptmp d i j))
    (fun i j => oX (d_pres d i j)) (fun i j => oX (d_la d i j))
    (option_map Fin (d_tlt d)) (option_map Fin (d_tgt d)) (option_map Fin (d_plt d)) (option_map Fin (d_pgt d)) (Fin pct).

(* k is the first row of profile j whose temperature is nearest to th *)
Definition nearest_row (d : series) (nr : nat) (th : R) (j k : nat) (x : R) : Prop :=
  (k < nr)%nat /\ sample d k j x /\
  forall k' x', (k' < nr)%nat -> sample d k' j x' ->
    Rabs (x - th) <= Rabs (x' - th) /\ ((k' < k)%nat -> Rabs (x - th) < Rabs (x' - th)).
(* profile j has usable temperatures on both sides of th *)
Definition straddles (d : series) (nr : nat) (th : R) (j : nat) : Prop :=
  exists a b x y, (a < nr)%nat /\ (b < nr)%nat /\ sample d a j x /\ sample d b j y /\ x < th < y.

(* two different multiples of 0.1 between usable temperatures *)
Definition wide_range (d : series) (nr nc : nat) : Prop :=
  exists i j i' j' x y (a b : Z), (i < nr)%nat /\ (j < nc)%nat /\ (i' < nr)%nat /\ (j' < nc)%nat
    /\ sample d i j x /\ sample d i' j' y /\ (a < b)%Z /\ x <= IZR a / 10 /\ IZR b / 10 <= y.

Definition mean_of (l : list R) : R := fold_right Rplus 0 l / INR (length l).
Definition sample_var (l : list R) : R :=
  fold_right Rplus 0 (map (fun x => (x - mean_of l) ^ 2) l) / (INR (length l) - 1).
Definition present (l : list XR) : list XR := filter (fun x => negb (nisnan x)) l.

(* scipy's interp1d between two points: linear inside, ValueError outside *)
Definition linear2 (f : list XR -> list XR -> XR -> res XR) : Prop :=
  forall x0 x1 y0 y1 x, x0 <> x1 -> Rmin x0 x1 <= x <= Rmax x0 x1 ->
    f [Fin x0; Fin x1] [Fin y0; Fin y1] (Fin x) = Ok (Fin (y0 + (y1 - y0) * (x - x0) / (x1 - x0))).

(* row k' next to row k holds a usable temperature on the other side of x, seen towards th *)
Definition far_side (d : series) (nr : nat) (th : R) (j k : nat) (x : R) (k' : nat) (x' : R) : Prop :=
  (k' < nr)%nat /\ (k' = S k \/ k = S k') /\ sample d k' j x' /\ ((x < th /\ x < x') \/ (th < x /\ x' < x)).
(* ... and is strictly the closer one of the two neighbours if both are *)
Definition partner (d : series) (nr : nat) (th : R) (j k : nat) (x : R) (k' : nat) (x' : R) : Prop :=
  far_side d nr th j k x k' x' /\
  forall k'' x'', far_side d nr th j k x k'' x'' -> k'' <> k' -> Rabs (x' - x) < Rabs (x'' - x).

(* salinity of profile j on level th: that of the nearest sample, or interpolated between it and
   its neighbour across th *)
Inductive level_salinity (d : series) (nr : nat) (theta : XR) (j : nat) : XR -> Prop :=
| ls_none : (forall th, theta = Fin th -> ~ straddles d nr th j) -> level_salinity d nr theta j NaN
| ls_nearest th k x : theta = Fin th -> straddles d nr th j -> nearest_row d nr th j k x ->
    (forall k' x', ~ far_side d nr th j k x k' x') \/ d_sal d k j = None
      \/ (exists k' x', partner d nr th j k x k' x' /\ d_sal d k' j = None) ->
    level_salinity d nr theta j (oX (d_sal d k j))
| ls_between th k x k' x' s s' : theta = Fin th -> straddles d nr th j -> nearest_row d nr th j k x ->
    partner d nr th j k x k' x' -> (x < th < x' \/ x' < th < x) ->
    d_sal d k j = Some s -> d_sal d k' j = Some s' ->
    level_salinity d nr theta j (Fin (s + (s' - s) * (th - x) / (x' - x))).

(* level l is sampled by too few profiles: its share of the best sampled level is below pct *)
Definition rare (S : list (list XR)) (pct : R) (l : nat) : Prop :=
  (l < length S)%nat /\ exists l', (l' < length S)%nat /\ (0 < length (present (nth l' S [])))%nat /\
    (forall k, (k < length S)%nat -> (length (present (nth k S [])) <= length (present (nth l' S [])))%nat) /\
    INR (length (present (nth l S []))) < pct * INR (length (present (nth l' S []))).

(* ---- candidate levels ---- *)
(* a usable pressure, and the extreme usable pressures *)
Definition psample (d : series) (i j : nat) (x : R) : Prop := kept d i j /\ d_pres d i j = Some x.
Definition pressure_range (d : series) (nr nc : nat) (lo hi : R) : Prop :=
  (exists i j, (i < nr)%nat /\ (j < nc)%nat /\ psample d i j lo) /\
  (exists i j, (i < nr)%nat /\ (j < nc)%nat /\ psample d i j hi) /\
  forall i j x, (i < nr)%nat -> (j < nc)%nat -> psample d i j x -> lo <= x <= hi.
(* the rows of profile j with both a usable pressure and a usable temperature *)
Definition usable_rows (d : series) (nr j : nat) (rows : list nat) : Prop :=
  StronglySorted lt rows /\
  forall i, In i rows <-> (i < nr)%nat /\ kept d i j /\ d_pres d i j <> None /\ d_ptmp d i j <> None.
(* pressure level pl lies strictly between two of them *)
Definition brackets (d : series) (j : nat) (rows : list nat) (pl : R) : Prop :=
  exists a b x y, In a rows /\ In b rows /\ d_pres d a j = Some x /\ d_pres d b j = Some y /\ x < pl < y.
(* spacing of the pressure levels *)
Definition spacing (range : R) : R := if Rlt_dec 450 range then 50 else IZR (Int_part (range / 10)).

(* no profile has the same usable temperature two rows apart *)
Definition no_ties (d : series) (nr nc : nat) : Prop :=
  forall j k x y, (j < nc)%nat -> (S (S k) < nr)%nat -> sample d k j x -> sample d (S (S k)) j y -> x <> y.
(* an interpolation that never fails, linear between two points *)
Definition line (xs ys : list XR) (x : XR) : res XR :=
  match xs, ys, x with
  | [Fin x0; Fin x1], [Fin y0; Fin y1], Fin x => Ok (Fin (y0 + (y1 - y0) * (x - x0) / (x1 - x0)))
  | _, _, _ => Ok NaN
  end.
