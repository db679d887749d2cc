(* The errors fit_cond returns with its curve *)
From Coq Require Import ZArith List Bool Reals.
From Verif Require Import Num Np Finders Stats FitCond Spec_Finders Spec_Stats Spec_FitCond LinR LeastSq.
Import ListNotations.
Local Open Scope R_scope.

(* c i j is the entry of lvcov for the i-th and the j-th valid sample *)
Definition correlations (rows : list row) (lv : nat -> nat -> XR) (c : rmat) : Prop :=
  let pos := valid_positions (col_x rows) (col_y rows) in
  forall i j, (i < length pos)%nat -> (j < length pos)%nat -> lv (nth i pos 0%nat) (nth j pos 0%nat) = Fin (c i j).

Section Errors.
  Variables (rows : list row) (c : rmat).
  Notation n := (length (valid rows)).
  Notation e i := (nth i (errors rows) 0).
  Definition precision (i : nat) : R := 1 / e i ^ 2.

  (* the variance of the sum of a_i y_i if the errors e_i of the y_i are standard deviations and c their correlations *)
  Definition variance_of (a : nat -> R) : R :=
    bsum n (fun i => bsum n (fun j => a i * a j * (c i j * e i * e j))).

  (* the weighted mean and the slope of the weighted line as such sums; xs are the positions, ascending *)
  Definition mean_coefficient (i : nat) : R := precision i / bsum n precision.
  Variable xs : list R.
  Definition centre : R := bsum n (fun i => precision i * nth i xs 0) / bsum n precision.
  Definition off (i : nat) : R := nth i xs 0 - centre.
  Definition scatter : R := bsum n (fun i => precision i * off i ^ 2).
  Definition slope_coefficient (i : nat) : R := precision i * off i / scatter.

  (* what is reported in place of the standard error of the mean and of the variance of the slope: the
     correlation of two samples is multiplied by the squared error of one of them, not by both errors *)
  Definition mean_pairs : R := bsum n (fun i => bsum n (fun j => c i j * precision j)).
  Definition slope_pairs : R := bsum n (fun i => bsum n (fun j => off i * c i j * (off j * precision j))).
End Errors.

(* half the range of the positions, and the standard deviation of the values; 1 in place of 0 *)
Definition half_range (xs : list R) : R :=
  if Req_EM_T (hd 0 xs) (last xs 0) then 1 else (last xs 0 - hd 0 xs) / 2.
Definition value_scale (rows : list row) : R :=
  if Req_EM_T (sqrt (pop_var (values rows))) 0 then 1 else sqrt (pop_var (values rows)).
