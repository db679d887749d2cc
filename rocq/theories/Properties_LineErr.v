(* The error fit_cond returns with a line. *)
From Coq Require Import String ZArith List Bool Reals.
From Verif Require Import Num Np Finders Stats FitCond Spec_Stats Spec_FitCond LinR Spec_FitErr Spec_LineErr Proofs_Curve Proofs_FC10 Proofs_FC11 Proofs_LineErr3
  Proofs_LineErrEx.
Import ListNotations.
Local Open Scope R_scope.

(* ---- C145 ---- *)
Theorem C145_error_of_line : forall det solve inv least_squares rng randn rows lv xs us c ps (g : rng) f g' zs gz a s,
  det_ok det -> solve_ok solve -> inv_ok inv -> usable rows -> sorted_positions rows xs -> distinct_of (map fst rows) us ->
  correlations rows lv c -> spread rows -> (forall w, In w us -> 0 <= inflation rows xs us c w) ->
  fit_cond det solve inv least_squares rng randn (col_x rows) (col_y rows) (col_e rows) lv (flat ps) g = (Ok (Fitted f), g') ->
  f_coef f = [Fin a; Fin s] -> best_line rows xs a s ->
  draws ps = VInt (Z.of_nat (length zs)) -> zs <> [] -> drawn randn (length (valid rows)) zs g gz ->
  f_condslope_err f = map (fun w => Fin (line_error rows xs us c zs w)) us /\ g' = gz.
Proof. exact @call_line_error. Qed.
Print Assumptions C145_error_of_line.
Theorem C145_line_is_combination : forall rows xs a s w, usable rows -> sorted_positions rows xs -> spread rows -> best_line rows xs a s ->
  a + s * (w - hd 0 xs) = bsum (length (valid rows)) (fun i => line_coefficient rows xs w i * nth i (values rows) 0).
Proof. exact line_combination. Qed.
Print Assumptions C145_line_is_combination.
Theorem C145_spread_of_lines_if_independent : forall rows xs us c zs w, usable rows -> sorted_positions rows xs -> spread rows -> hd 0 us <= w ->
  (forall i j, (i < length (valid rows))%nat -> (j < length (valid rows))%nat -> c i j = delta i j) ->
  line_error rows xs us c zs w = sqrt (fold_right Rplus 0 (map (fun z => deviation rows xs us z w ^ 2) zs) / INR (length zs)).
Proof. exact error_independent. Qed.
Print Assumptions C145_spread_of_lines_if_independent.
Example C145_witness : exists f, fit_cond exact_det exact_solve exact_inv no_optimum unit one_noise (col_x rowsC) (col_y rowsC) (col_e rowsC) independent (flat only_max) tt = (Ok (Fitted f), tt) /\
  f_condslope_err f = map (fun _ => Fin 1) [0; 1; 2; 3; 4; 5].
Proof. exact one_call. Qed.
(* the factor for correlated samples is not the ratio of the variances of the line with and without correlation *)
Theorem C145_factor_is_ratio_of_variances_refuted : exists rows xs us c w, usable rows /\ sorted_positions rows xs /\ spread rows /\
  inflation rows xs us c w = 3 / 4 /\
  variance_of rows c (line_coefficient rows xs (curve_position xs us w)) / variance_of rows delta (line_coefficient rows xs (curve_position xs us w)) = 1.
Proof. exact factor_not_ratio. Qed.
Print Assumptions C145_factor_is_ratio_of_variances_refuted.
