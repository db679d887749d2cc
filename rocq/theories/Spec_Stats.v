(* Specification vocabulary for the properties of pyowc/core/stats.py *)
From Coq Require Import ZArith List Reals Lra Lia Permutation Sorted Bool.
From Verif Require Import Num Stats Spec_Utilities Spec_Finders LinR LeastSq.
Import ListNotations.
Local Open Scope R_scope.

(* ---- variances ---- *)
(* mean squared deviation from the mean *)
Definition pop_var (l : list R) : R := mean_of (map (fun x => (x - mean_of l) ^ 2) l).

(* a cast with a salinity (possibly missing) and a position *)
Record station := mkStation { st_sal : option R; st_lat : R; st_long : R }.
Definition fstation (s : station) : obs XR := mkObs (oX (st_sal s)) (Fin (st_lat s)) (Fin (st_long s)).
Definition dstation := mkStation None 0 0.
Definition dist2 (a b : station) : R := (st_lat a - st_lat b) ^ 2 + (st_long a - st_long b) ^ 2.
Definition same_place (a b : station) : Prop := st_lat a = st_lat b /\ st_long a = st_long b.

(* j is the first of the casts elsewhere that are closest to cast i *)
Definition nearest (l : list station) (i j : nat) : Prop :=
  (j < length l)%nat /\ ~ same_place (nth i l dstation) (nth j l dstation)
  /\ (forall k, (k < length l)%nat -> ~ same_place (nth i l dstation) (nth k l dstation) ->
        dist2 (nth i l dstation) (nth j l dstation) <= dist2 (nth i l dstation) (nth k l dstation))
  /\ (forall k, (k < j)%nat -> ~ same_place (nth i l dstation) (nth k l dstation) ->
        dist2 (nth i l dstation) (nth j l dstation) < dist2 (nth i l dstation) (nth k l dstation)).

(* squared difference of two salinities, missing if one of them is *)
Definition sqdiff (a b : option R) : option R :=
  match a, b with Some x, Some y => Some ((x - y) ^ 2) | _, _ => None end.

(* ---- horizontal/temporal correlation of covar_xyt_pv ---- *)
Definition fpoint (p : point R) : point XR :=
  mkPoint (Fin (p_lat p)) (Fin (p_long p)) (Fin (p_date p)) (Fin (p_z p)).
Definition dpointR : point R := mkPoint 0 0 0 0.

Record scales := mkScales { s_lat : R; s_long : R; s_age : R; s_phi : R; s_pv : bool }.

(* squared separation: latitude by the latitude scale, longitude by the longitude scale, time
   (unless its scale is 0), potential vorticity (if used) *)
Definition separation2 (s : scales) (p q : point R) : R :=
  ((p_lat p - p_lat q) / s_lat s) ^ 2 + ((p_long p - p_long q) / s_long s) ^ 2
  + (if Req_EM_T (s_age s) 0 then 0 else ((p_date p - p_date q) / s_age s) ^ 2)
  + (if s_pv s then vorticity_distance2 (s_phi s) (vort (p_lat p) (p_z p)) (vort (p_lat q) (p_z q))
     else 0).
Definition scales_nonzero (s : scales) : Prop :=
  s_lat s <> 0 /\ s_long s <> 0 /\ (s_pv s = true -> s_phi s <> 0).
Definition has_depth (s : scales) (l : list (point R)) : Prop :=
  s_pv s = true -> forall p, In p l -> p_z p <> 0.
Definition some_points (s : scales) (l : list (point R)) : Prop := s_pv s = true -> l <> [].

(* covar_xyt_pv called so that the latitude is divided by s_lat: the argument in the position called
   "long" is the latitude scale *)
Definition covariance (s : scales) (pts1 pts2 : list (point R)) : res (nat -> nat -> XR) :=
  covar_xyt_pv (map fpoint pts1) (map fpoint pts2) (Fin (s_long s)) (Fin (s_lat s)) (Fin (s_age s))
    (Fin (s_phi s)) (if s_pv s then 1%Z else 0%Z).

(* ---- vertical scales of build_cov ---- *)
Definition scale_down (t : R) : R :=
  if Rle_dec t 1 then 1 else if Rle_dec t (5/2) then 1 + (t - 1) / 3 else if Rle_dec t 4 then 3/2
  else if Rle_dec t 8 then 3/2 + (t - 4) * 5 / 8 else if Rle_dec t 12 then 4
  else if Rle_dec t 18 then 4 + (t - 12) / 3 else 6.
Definition scale_up (t : R) : R :=
  if Rle_dec t 1 then 1 + (t + 2) / 6 else if Rle_dec t (5/2) then 3/2
  else if Rle_dec t 4 then 3/2 + (t - 5/2) * 5 / 3 else if Rle_dec t 8 then 4
  else if Rle_dec t 12 then 4 + (t - 8) / 2 else 6.

(* correlation of levels i and j of a profile with temperatures t: full with itself and with
   missing values; Gaussian otherwise, with the scale of level i looking down or up *)
Definition vertical (t : nat -> option R) (i j : nat) : R :=
  match t i, t j with
  | Some x, Some y =>
      if Nat.eqb i j then 1
      else exp (- ((y - x) / (if Nat.ltb i j then scale_down x else scale_up x)) ^ 2)
  | _, _ => 1
  end.

Definition fcoord (c : coord R) : coord XR := mkCoord (Fin (c_0 c)) (Fin (c_1 c)) (Fin (c_2 c)).
Definition dcoord : coord R := mkCoord 0 0 0.
Record hscales := mkHScales { h_lat : R; h_long : R; h_phi : R; h_pv : bool }.
Definition hconfig (h : hscales) : cov_config XR :=
  mkCovConfig (Fin (h_long h)) (Fin (h_lat h)) (Fin (h_phi h)) (h_pv h).
Definition planetary (c : coord R) : R := 2 * (7292 / 1000) / 100000 * sin (c_0 c * PI / 180) / c_2 c.
(* the first coordinate is divided by the latitude scale; PV enters unless the first profile has none *)
Definition horizontal (h : hscales) (a b : coord R) : R :=
  exp (- (((c_0 a - c_0 b) / h_lat h) ^ 2 + ((c_1 a - c_1 b) / h_long h) ^ 2
          + if h_pv h then
              (if Req_EM_T (planetary a) 0 then 0
               else (planetary a - planetary b) ^ 2 / ((planetary a) ^ 2 + (planetary b) ^ 2) / h_phi h ^ 2)
            else 0)).
Definition hscales_ok (h : hscales) (l : list (coord R)) : Prop :=
  h_lat h <> 0 /\ h_long h <> 0
  /\ (forall c, In c l -> c_2 c <> 0) /\ (h_pv h = true -> h_phi h <> 0).

(* a temperature that is missing or within the tabulated range *)
Definition tabulated (x : XR) : Prop := x = NaN \/ exists r, x = Fin r /\ -2 <= r <= 30.

Definition in_table (o : option R) : Prop := match o with Some t => -2 <= t <= 30 | None => True end.

Definition table_needed (nr nc : nat) (t : nat -> nat -> option R) : Prop :=
  (2 <= nr)%nat -> forall i p, (i < nr)%nat -> (p < nc)%nat -> in_table (t i p).

Definition isothermal (nr : nat) (t : nat -> option R) : Prop :=
  forall i j x y, (i < nr)%nat -> (j < nr)%nat -> t i = Some x -> t j = Some y -> x = y.

(* ---- noise_variance ---- *)
Definition all_same (l : list station) : Prop := forall a b, In a l -> In b l -> same_place a b.

Definition shift_sal (c : R) (s : station) : station :=
  mkStation (option_map (fun x => x + c) (st_sal s)) (st_lat s) (st_long s).

(* ---- least squares with prescribed break points ---- *)
(* the curves: constant, and for every break a function that is 0 before the break and rises with
   slope 1 up to the next break (for ever after the last) *)
Definition basis (b : list R) (c : nat) (x : R) : R :=
  match c with
  | O => 1
  | S k => Rmax 0 ((if Nat.ltb (S k) (length b) then Rmin x (nth (S k) b 0) else x) - nth k b 0)
  end.
(* coefficients: one value and one slope per break *)
Definition curve (b : list R) (beta : list R) (x : R) : R :=
  bsum (S (length b)) (fun c => nth c beta 0 * basis b c x).
Definition residuals (b xs ys beta : list R) : list R :=
  map (fun p => snd p - curve b beta (fst p)) (combine xs ys).

Definition weight (w : option rmat) : rmat := match w with Some w => w | None => delta end.
Definition weights_ok (n : nat) (w : option rmat) : Prop :=
  match w with Some w => sym n w /\ psd n w | None => True end.
Definition fweights (w : option rmat) : option (nat -> nat -> XR) :=
  option_map (fun w i j => Fin (w i j)) w.
(* r^T W r; the plain sum of squares without weights *)
Definition weighted_ss (w : option rmat) (r : list R) : R :=
  let n := length r in
  bsum n (fun i => bsum n (fun j => nth i r 0 * nth j r 0 * weight w i j)).
(* the normal equations determine the coefficients *)
Definition normal_matrix (b xs : list R) (w : option rmat) : rmat :=
  fun a c => bsum (length xs) (fun j => bsum (length xs) (fun i =>
    basis b a (nth i xs 0) * weight w i j) * basis b c (nth j xs 0)).
Definition determined (b xs : list R) (w : option rmat) : Prop :=
  inj (S (length b)) (normal_matrix b xs w).

(* what is assumed of np.linalg.det and scipy.linalg.solve, exact arithmetic *)
Definition finmat (n m : nat) (A : nat -> nat -> XR) (a : rmat) : Prop :=
  forall i j, (i < n)%nat -> (j < m)%nat -> A i j = Fin (a i j).
Definition det_ok (det : nat -> (nat -> nat -> XR) -> XR) : Prop :=
  forall n A a, finmat n n A a -> exists d, det n A = Fin d /\ (d <> 0 <-> inj n a).
Definition solve_ok (solve : nat -> nat -> (nat -> nat -> XR) -> (nat -> nat -> XR) -> res (nat -> nat -> XR)) : Prop :=
  forall n m A a B b, finmat n n A a -> finmat n m B b -> inj n a ->
  exists X x, solve n m A B = Ok X /\ finmat n m X x /\
    forall i j, (i < n)%nat -> (j < m)%nat -> mm n a x i j = b i j.

(* x lies in the k-th piece: between break k and the next, or after the last *)
Definition in_piece (b : list R) (k : nat) (x : R) : Prop :=
  (k < length b)%nat /\ nth k b 0 <= x /\ ((S k < length b)%nat -> x <= nth (S k) b 0).
(* a function that is a line on every piece *)
Definition piecewise_linear (b : list R) (f : R -> R) (slope : nat -> R) : Prop :=
  forall k x, in_piece b k x -> f x = f (nth k b 0) + slope k * (x - nth k b 0).

(* ---- break points of fit_cond ---- *)
Definition strictly_between (a b : R) (l : list R) : Prop := forall x, In x l -> a < x < b.
(* a strictly increasing list of positions inside an interval *)
Definition ordered_inside (a b : R) (l : list R) : Prop := StronglySorted Rlt l /\ strictly_between a b l.

(* ---- effective sample size ---- *)
Definition row_sum (n : nat) (k : rmat) (i : nat) : R := bsum n (fun j => k i j).
Definition correlation_matrix (n : nat) (k : rmat) : Prop :=
  (forall i, (i < n)%nat -> k i i = 1) /\ (forall i j, (i < n)%nat -> (j < n)%nat -> 0 <= k i j <= 1).
(* the positions of the valid samples: position and value both finite *)
Definition valid_positions (x y : list XR) : list nat :=
  filter (fun i => nisfin (nth i x NaN) && nisfin (nth i y NaN)) (seq 0 (length x)).
