(* The errors fit_cond returns with a constant and with a line. *)
From Coq Require Import String ZArith List Bool Reals Lra.
From Verif Require Import Num Np Stats FitCond Spec_Stats Spec_FitCond LinR Spec_FitErr Proofs_FC11 Proofs_FC15.
Import ListNotations.
Local Open Scope R_scope.

(* ---- C114 ---- *)
Theorem C114_error_of_constant : forall det solve inv least_squares rng randn rows lv us c args (g : rng) f g',
  inv_ok inv -> usable rows -> distinct_of (map fst rows) us -> correlations rows lv c -> 0 <= mean_pairs rows c ->
  fit_cond det solve inv least_squares rng randn (col_x rows) (col_y rows) (col_e rows) lv args g = (Ok (Fitted f), g') ->
  length (f_coef f) = 1%nat ->
  f_condslope_err f = map (fun _ => Fin (sqrt (mean_pairs rows c) / bsum (length (valid rows)) (precision rows))) us /\
  f_time_deriv_err f = map (fun _ => NaN) us /\ g' = g.
Proof. exact call_mean_error. Qed.
Print Assumptions C114_error_of_constant.
Theorem C114_constant_is_weighted_mean : forall rows, usable rows ->
  weighted_mean rows = bsum (length (valid rows)) (fun i => mean_coefficient rows i * nth i (values rows) 0).
Proof. exact mean_is_combination. Qed.
Print Assumptions C114_constant_is_weighted_mean.
Theorem C114_standard_error_if_independent : forall rows c, usable rows ->
  (forall i j, (i < length (valid rows))%nat -> (j < length (valid rows))%nat -> c i j = delta i j) ->
  sqrt (mean_pairs rows c) / bsum (length (valid rows)) (precision rows) = sqrt (variance_of rows c (mean_coefficient rows)).
Proof. exact mean_error_independent. Qed.
Print Assumptions C114_standard_error_if_independent.
Theorem C114_standard_error_if_equal : forall rows c s, usable rows -> (forall e, In e (errors rows) -> e = s) -> 0 <= mean_pairs rows c ->
  sqrt (mean_pairs rows c) / bsum (length (valid rows)) (precision rows) = sqrt (variance_of rows c (mean_coefficient rows)).
Proof. exact mean_error_equal. Qed.
Print Assumptions C114_standard_error_if_equal.
Theorem C114_never_smaller : forall rows c, usable rows ->
  (forall i j, (i < length (valid rows))%nat -> (j < length (valid rows))%nat -> c i j = c j i /\ 0 <= c i j) ->
  sqrt (variance_of rows c (mean_coefficient rows)) <= sqrt (mean_pairs rows c) / bsum (length (valid rows)) (precision rows).
Proof. exact mean_error_large. Qed.
Print Assumptions C114_never_smaller.
(* two samples with errors 1 and 2 and correlation 1/2 *)
Theorem C114_standard_error_refuted : exists f,
  run (col_x rowsD) (col_y rowsD) (col_e rowsD) halfcorrX (upto (-1)) tt = (Ok (Fitted f), tt) /\
  f_condslope_err f = [Fin (sqrt (15 / 8) / (5 / 4)); Fin (sqrt (15 / 8) / (5 / 4))] /\
  sqrt (variance_of rowsD halfcorr (mean_coefficient rowsD)) < sqrt (15 / 8) / (5 / 4).
Proof. exact mean_error_case. Qed.
Print Assumptions C114_standard_error_refuted.
Example C114_witness : inv_ok exact_inv /\ usable rowsD /\ correlations rowsD halfcorrX halfcorr /\ mean_pairs rowsD halfcorr = 15 / 8 /\
  forall i j, (i < length (valid rowsD))%nat -> (j < length (valid rowsD))%nat -> halfcorr i j = halfcorr j i /\ 0 <= halfcorr i j.
Proof.
  split; [exact exact_inv_ok|]. split; [exact usableD|]. split; [exact correlationsD|]. split; [exact (proj1 pairsD)|].
  intros i j _ _. unfold halfcorr. rewrite PeanoNat.Nat.eqb_sym. split; auto. destruct (Nat.eqb j i); lra.
Qed.

(* ---- C115 ---- *)
Theorem C115_derivative_error_of_line : forall det solve inv least_squares rng randn rows lv xs us c args (g : rng) f g',
  inv_ok inv -> usable rows -> sorted_positions rows xs -> distinct_of (map fst rows) us ->
  correlations rows lv c -> spread rows ->
  fit_cond det solve inv least_squares rng randn (col_x rows) (col_y rows) (col_e rows) lv args g = (Ok (Fitted f), g') ->
  length (f_coef f) = 2%nat ->
  f_time_deriv_err f = map (fun _ => Fin (slope_pairs rows c xs / scatter rows xs ^ 2 * (half_range xs / value_scale rows))) us.
Proof. exact call_slope_error. Qed.
Print Assumptions C115_derivative_error_of_line.
Theorem C115_slope_of_best_line : forall rows xs a s, usable rows -> sorted_positions rows xs -> spread rows -> best_line rows xs a s ->
  s = bsum (length (valid rows)) (fun i => slope_coefficient rows xs i * nth i (values rows) 0).
Proof. exact slope_is_combination. Qed.
Print Assumptions C115_slope_of_best_line.
Theorem C115_variance_if_independent : forall rows c xs, usable rows -> sorted_positions rows xs -> spread rows ->
  (forall i j, (i < length (valid rows))%nat -> (j < length (valid rows))%nat -> c i j = delta i j) ->
  slope_pairs rows c xs / scatter rows xs ^ 2 = variance_of rows c (slope_coefficient rows xs) /\
  variance_of rows c (slope_coefficient rows xs) = / scatter rows xs.
Proof. exact slope_error_independent. Qed.
Print Assumptions C115_variance_if_independent.
Theorem C115_scatter_positive : forall rows xs, usable rows -> sorted_positions rows xs -> spread rows -> 0 < scatter rows xs.
Proof. exact scatter_pos. Qed.
Print Assumptions C115_scatter_positive.
(* the values 1..5 at the positions 1..5 with unit errors *)
Theorem C115_standard_error_refuted : exists f,
  run (col_x rowsC) (col_y rowsC) (col_e rowsC) independent (upto 0) tt = (Ok (Fitted f), tt) /\
  f_time_deriv_err f = map (fun _ => Fin (sqrt 2 / 10)) [0; 1; 2; 3; 4; 5] /\
  sqrt (variance_of rowsC delta (slope_coefficient rowsC [1; 2; 3; 4; 5])) = sqrt (1 / 10) /\ sqrt 2 / 10 < sqrt (1 / 10).
Proof. exact slope_error_case. Qed.
Print Assumptions C115_standard_error_refuted.
Example C115_witness : usable rowsC /\ sorted_positions rowsC [1; 2; 3; 4; 5] /\ correlations rowsC independent delta /\ spread rowsC /\
  exists f, run (col_x rowsC) (col_y rowsC) (col_e rowsC) independent (upto 0) tt = (Ok (Fitted f), tt) /\ length (f_coef f) = 2%nat.
Proof.
  split; [exact usableC|]. split; [exact sortedC|]. split; [exact (correlations_independent rowsC)|]. split; [exact spreadC|exact fitC].
Qed.
