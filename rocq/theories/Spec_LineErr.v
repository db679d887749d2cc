(* The error fit_cond returns with a line *)
From Coq Require Import String ZArith List Bool Reals.
From Verif Require Import Num Np Finders Stats FitCond Spec_Finders Spec_Stats Spec_FitCond LinR LeastSq Spec_FitErr.
Import ListNotations.
Local Open Scope R_scope.

Section Line.
  Variables (rows : list row) (xs : list R).
  Notation n := (length (valid rows)).
  Notation e i := (nth i (errors rows) 0).
  (* the weighted line at the position w is the sum of line_coefficient w i times the i-th value *)
  Definition line_coefficient (w : R) (i : nat) : R :=
    mean_coefficient rows i + slope_coefficient rows xs i * (w - centre rows xs).
  (* what is used in place of the variance of the sum of a_i y_i: the correlation is multiplied by the
     squared error of one of the samples; without correlations it is the variance *)
  Definition pairs_of (c : rmat) (a : nat -> R) : R :=
    bsum n (fun i => bsum n (fun j => a i / precision rows i * c i j * a j)).

  (* the positions at which the result is given; the curve is moved so that the first valid position is
     taken for the first of them (C79) *)
  Variable us : list R.
  Definition curve_position (u : R) : R := u - hd 0 us + hd 0 xs.
  (* the line through the noise e_i z_i *)
  Definition deviation (z : list R) (u : R) : R :=
    bsum n (fun i => line_coefficient (curve_position u) i * (e i * nth i z 0)).
  (* the factor for correlated samples *)
  Definition correlated (c : rmat) (u : R) : R :=
    let t := half_range xs * (u - hd 0 us) in
    pairs_of c (line_coefficient (hd 0 xs)) + t * pairs_of c (slope_coefficient rows xs).
  Definition inflation (c : rmat) (u : R) : R := correlated c u / correlated delta u.
  (* the mean square of the lines through the drawn noises, times that factor *)
  Definition line_error (c : rmat) (zs : list (list R)) (u : R) : R :=
    sqrt (fold_right Rplus 0 (map (fun z => deviation z u ^ 2) zs) / INR (length zs) * inflation c u).
End Line.

(* successive draws of n numbers *)
Fixpoint drawn {rng} (randn : nat -> rng -> list XR * rng) (n : nat) (zs : list (list R)) (g g' : rng) : Prop :=
  match zs with
  | [] => g' = g
  | z :: r => exists g1, randn n g = (map Fin z, g1) /\ length z = n /\ drawn randn n r g1 g'
  end.
(* the number of draws: 200 unless given *)
Definition is_loops {T} (q : pyval T * pyval T) : bool :=
  match fst q with VStr s => String.eqb (str_lower s) "nloops"%string | _ => false end.
Definition draws {T} (ps : list (pyval T * pyval T)) : pyval T :=
  fold_left (fun v q => if is_loops q then snd q else v) ps (VInt 200).
