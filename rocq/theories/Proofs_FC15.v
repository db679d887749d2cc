(* Proofs for fit_cond: the reported errors of a call, and worked cases *)
From Coq Require Import String ZArith List Bool Reals Lra Lia Sorted Permutation.
From Verif Require Import Num Np NumFacts NpFacts Utilities Finders Stats FitCond Spec_Utilities Spec_Finders Spec_Stats
  Spec_FitCond LinR LeastSq Proofs_Utilities Proofs_Stats1 Proofs_Fit Proofs_Curve Proofs_FC1 Proofs_FC2 Proofs_FC3 Proofs_FC4 Proofs_FC5
  Proofs_FC6 Proofs_FC7 Proofs_FC8 Proofs_FC9 Proofs_FC10 Proofs_FC11 Spec_FitErr Proofs_FC13 Proofs_FC14.
Import ListNotations.
Local Open Scope R_scope.
Local Open Scope list_scope.

Section Calls.
  Variable det : nat -> (nat -> nat -> XR) -> XR.
  Variable solve : nat -> nat -> (nat -> nat -> XR) -> (nat -> nat -> XR) -> res (nat -> nat -> XR).
  Variable inv : nat -> (nat -> nat -> XR) -> res (nat -> nat -> XR).
  Variable least_squares : (list XR -> res (list XR)) -> list XR -> res (list (list XR) * list XR).
  Variable rng : Type.
  Variable randn : nat -> rng -> list XR * rng.
  Variables (rows : list row) (lv : nat -> nat -> XR) (xs us : list R) (c : rmat).
  Notation here := (fit_cond det solve inv least_squares rng randn (col_x rows) (col_y rows) (col_e rows) lv).
  Notation n := (length (valid rows)).

  Lemma call_mean_error args g f g' : inv_ok inv -> usable rows -> distinct_of (map fst rows) us -> correlations rows lv c ->
    0 <= mean_pairs rows c -> here args g = (Ok (Fitted f), g') -> length (f_coef f) = 1%nat ->
    f_condslope_err f = map (fun _ => Fin (sqrt (mean_pairs rows c) / bsum n (precision rows))) us /\
    f_time_deriv_err f = map (fun _ => NaN) us /\ g' = g.
  Proof.
    intros Hi Hu Hus Hc Hq E L. destruct (sorted_positions_exists rows) as (xs1 & Hxs).
    destruct (xs_cons rows xs1 Hu Hxs) as (x1 & xr & ->). destruct (distinct_exists (x1 :: xr)) as (vs & Hvs).
    apply fit_route in E as (o & nbr1 & t & best & B & E). pose proof (evaluate_coefs _ _ _ _ _ _ _ _ _ _ _ _ _ _ B E) as Lb.
    rewrite L in Lb. subst best. eapply constant_error; eauto.
  Qed.
  Lemma half_eq : half_range xs = xscR xs. Proof. reflexivity. Qed.
  Lemma scale_eq : value_scale rows = yscR rows. Proof. reflexivity. Qed.
  Lemma call_slope_error args g f g' : inv_ok inv -> usable rows -> sorted_positions rows xs -> distinct_of (map fst rows) us ->
    correlations rows lv c -> spread rows -> here args g = (Ok (Fitted f), g') -> length (f_coef f) = 2%nat ->
    f_time_deriv_err f
    = map (fun _ => Fin (slope_pairs rows c xs / scatter rows xs ^ 2 * (half_range xs / value_scale rows))) us.
  Proof.
    intros Hi Hu Hxs Hus Hc Hs E L. rewrite half_eq, scale_eq.
    destruct (xs_cons rows xs Hu Hxs) as (x1 & xr & Ex). rewrite Ex in *. destruct (distinct_exists (x1 :: xr)) as (vs & Hvs).
    apply fit_route in E as (o & nbr1 & t & best & B & E). pose proof (evaluate_coefs _ _ _ _ _ _ _ _ _ _ _ _ _ _ B E) as Lb.
    rewrite L in Lb. subst best. apply (spread_several rows x1 xr Hxs) in Hs.
    eapply line_error; eauto.
  Qed.
End Calls.

Lemma scatter_pos rows xs : usable rows -> sorted_positions rows xs -> spread rows -> 0 < scatter rows xs.
Proof.
  intros Hu Hxs (p & q & Hp & Hq & N). destruct (Rle_lt_or_eq_dec 0 _ (scatter_nonneg rows Hu xs)) as [|Z]; auto.
  exfalso. apply N.
  assert (A : forall i, (i < length (valid rows))%nat -> nth i xs 0 = centre rows xs).
  { intros i Hi. pose proof (bsum_zero_each (length (valid rows)) (fun i => precision rows i * off rows xs i ^ 2)) as Q.
    assert (E : precision rows i * off rows xs i ^ 2 = 0).
    { apply Q; auto. intros j Hj. apply Rmult_le_pos; [left; now apply u_pos'|apply pow2_ge_0]. }
    pose proof (u_pos' rows Hu i Hi). apply Rmult_integral in E as [|E]; [lra|]. 
    assert (off rows xs i = 0) by (apply Rsqr_0_uniq; rewrite Rsqr_pow2; auto). unfold off in *. lra. }
  assert (L : length xs = length (valid rows)) by (destruct Hxs as [_ P]; apply Permutation_length in P; now rewrite map_length in P).
  assert (B : forall w, In w (map fst (valid rows)) -> w = centre rows xs).
  { intros w Hw. apply (Permutation_in w (Permutation_sym (proj2 Hxs))) in Hw. apply (In_nth _ _ 0) in Hw as (i & Hi & <-). apply A. lia. }
  now rewrite (B p Hp), (B q Hq).
Qed.
Lemma slope_is_combination rows xs a s : usable rows -> sorted_positions rows xs -> spread rows -> best_line rows xs a s ->
  s = bsum (length (valid rows)) (fun i => slope_coefficient rows xs i * nth i (values rows) 0).
Proof. intros Hu Hxs Hs. apply (best_line_slope rows Hu). now apply scatter_pos. Qed.
Lemma mean_is_combination rows : usable rows ->
  weighted_mean rows = bsum (length (valid rows)) (fun i => mean_coefficient rows i * nth i (values rows) 0).
Proof.
  intros Hu. pose proof (U_pos' rows Hu) as P. unfold weighted_mean. rewrite values_length.
  change (bsum (length (valid rows)) (fun i => 1 / nth i (errors rows) 0 ^ 2)) with (bsum (length (valid rows)) (precision rows)).
  unfold Rdiv at 1. rewrite <- bsum_scal_r. apply bsum_ext. intros i Hi. unfold mean_coefficient. set (S := bsum (length (valid rows)) (precision rows)) in *.
  pose proof (e_nz rows Hu i Hi). unfold precision. field. split; auto. lra.
Qed.

Notation std_error rows c a := (sqrt (variance_of rows c a)).
Lemma mean_error_independent rows c : usable rows ->
  (forall i j, (i < length (valid rows))%nat -> (j < length (valid rows))%nat -> c i j = delta i j) ->
  sqrt (mean_pairs rows c) / bsum (length (valid rows)) (precision rows) = std_error rows c (mean_coefficient rows).
Proof.
  intros Hu D. rewrite variance_mean, <- pairs_independent by auto. apply sqrt_mean; auto.
  apply bsum_nonneg. intros i Hi. apply bsum_nonneg. intros j Hj. rewrite D by auto. pose proof (u_pos' rows Hu j Hj).
  unfold delta. destruct (Nat.eqb i j); lra.
Qed.
Lemma mean_error_equal rows c s : usable rows -> (forall e, In e (errors rows) -> e = s) -> 0 <= mean_pairs rows c ->
  sqrt (mean_pairs rows c) / bsum (length (valid rows)) (precision rows) = std_error rows c (mean_coefficient rows).
Proof.
  intros Hu D Q. rewrite variance_mean, <- (pairs_equal rows c Hu s) by (auto; intros i Hi; apply D; apply nth_In; unfold errors; now rewrite map_length).
  now apply sqrt_mean.
Qed.
Lemma mean_error_large rows c : usable rows ->
  (forall i j, (i < length (valid rows))%nat -> (j < length (valid rows))%nat -> c i j = c j i /\ 0 <= c i j) ->
  std_error rows c (mean_coefficient rows) <= sqrt (mean_pairs rows c) / bsum (length (valid rows)) (precision rows).
Proof.
  intros Hu D. rewrite variance_mean by auto.
  assert (Q : 0 <= mean_pairs rows c).
  { apply bsum_nonneg. intros i Hi. apply bsum_nonneg. intros j Hj. apply Rmult_le_pos; [apply D; auto|left; now apply u_pos']. }
  rewrite sqrt_mean by auto. apply sqrt_le_1_alt. apply Rmult_le_compat_r.
  - left. apply Rinv_0_lt_compat. apply pow_lt. now apply U_pos'.
  - now apply pairs_ge.
Qed.
Lemma slope_error_independent rows c xs : usable rows -> sorted_positions rows xs -> spread rows ->
  (forall i j, (i < length (valid rows))%nat -> (j < length (valid rows))%nat -> c i j = delta i j) ->
  slope_pairs rows c xs / scatter rows xs ^ 2 = variance_of rows c (slope_coefficient rows xs) /\
  variance_of rows c (slope_coefficient rows xs) = / scatter rows xs.
Proof. intros Hu Hxs Hs. pose proof (scatter_pos rows xs Hu Hxs Hs). apply variance_slope_independent; auto. lra. Qed.

(* ---- two samples with errors 1 and 2 and correlation 1/2 ---- *)
Definition rowsD : list row := [(0, Some (1, 1)); (1, Some (2, 2))].
Definition halfcorr : rmat := fun i j => if Nat.eqb i j then 1 else 1 / 2.
Definition halfcorrX (i j : nat) : XR := Fin (halfcorr i j).
Lemma usableD : usable rowsD. Proof. split; [discriminate|]. cbn. intros e. intuition lra. Qed.
Lemma positionsD : valid_positions (col_x rowsD) (col_y rowsD) = [0%nat; 1%nat]. Proof. reflexivity. Qed.
Lemma correlationsD : correlations rowsD halfcorrX halfcorr.
Proof.
  unfold correlations. rewrite positionsD. cbn [length]. intros [|[|i]] [|[|j]] Hi Hj; try lia; reflexivity.
Qed.
Lemma effectiveD : effective_number rowsD halfcorrX (4 / 3).
Proof.
  unfold effective_number. rewrite positionsD. exists halfcorr. split; [reflexivity|].
  assert (S : forall i, In i [0%nat; 1%nat] -> fold_right Rplus 0 (map (halfcorr i) [0%nat; 1%nat]) = 3 / 2).
  { intros i [<-|[<-|[]]]; cbn; lra. }
  split; [intros i Hi; rewrite S by auto; lra|]. cbn [map fold_right]. cbn. field.
Qed.
Lemma pairsD : mean_pairs rowsD halfcorr = 15 / 8 /\ variance_of rowsD halfcorr (mean_coefficient rowsD) = 7 / 4 / (5 / 4) ^ 2
  /\ bsum (length (valid rowsD)) (precision rowsD) = 5 / 4.
Proof.
  assert (S : bsum (length (valid rowsD)) (precision rowsD) = 5 / 4) by (unfold bsum, precision, rowsD; cbn; field).
  split; [unfold mean_pairs, bsum, precision, halfcorr, rowsD; cbn; field|]. split; auto.
  rewrite variance_mean by apply usableD. rewrite S. f_equal. unfold both, bsum, halfcorr, rowsD. cbn. field.
Qed.
Lemma mean_error_case : exists f, run (col_x rowsD) (col_y rowsD) (col_e rowsD) halfcorrX (upto (-1)) tt = (Ok (Fitted f), tt) /\
  f_condslope_err f = [Fin (sqrt (15 / 8) / (5 / 4)); Fin (sqrt (15 / 8) / (5 / 4))] /\
  std_error rowsD halfcorr (mean_coefficient rowsD) < sqrt (15 / 8) / (5 / 4).
Proof.
  assert (D : distinct_of (map fst rowsD) [0; 1]) by (split; [repeat constructor; lra|]; cbn; tauto).
  destruct pairsD as (P1 & P2 & P3).
  destruct (choice_constant exact_det exact_solve exact_inv no_optimum unit no_noise rowsD halfcorrX [0; 1] (4 / 3) (VStr "Max_No_Breaks") (-1) tt)
    as (f & E & (_ & _ & _ & Co & _)); auto using exact_inv_ok, usableD, effectiveD, upto_named; try lia.
  exists f. split; [exact E|]. split.
  - destruct (call_mean_error exact_det exact_solve exact_inv no_optimum unit no_noise rowsD halfcorrX [0; 1] halfcorr _ _ _ _
      exact_inv_ok usableD D correlationsD ltac:(rewrite P1; lra) E) as (Q & _); [now rewrite Co|].
    rewrite Q, P1, P3. reflexivity.
  - rewrite P2. rewrite <- P3. rewrite sqrt_mean by (try apply usableD; lra). rewrite P3. apply sqrt_lt_1_alt. split; lra.
Qed.

(* ---- five samples on a line ---- *)
Lemma usableC : usable rowsC. Proof. split; [discriminate|]. cbn. intros e. intuition lra. Qed.
Lemma sortedC : sorted_positions rowsC [1; 2; 3; 4; 5].
Proof. split; [|reflexivity]. apply ascending_sorted. repeat constructor; lra. Qed.
Lemma spreadC : spread rowsC. Proof. exists 1, 2. cbn. repeat split; auto. lra. Qed.
Lemma correlations_independent rows : correlations rows independent delta.
Proof.
  unfold correlations. cbv zeta. intros i j Hi Hj. unfold independent. f_equal.
  assert (ND : NoDup (valid_positions (col_x rows) (col_y rows))) by (unfold valid_positions; apply NoDup_filter, seq_NoDup).
  destruct (Nat.eq_dec i j) as [->|N]; [now rewrite !delta_same|].
  rewrite !delta_diff; auto. intros E. apply N. eapply NoDup_nth in E; eauto.
Qed.
Lemma fitC : exists f, run (col_x rowsC) (col_y rowsC) (col_e rowsC) independent (upto 0) tt = (Ok (Fitted f), tt) /\ length (f_coef f) = 2%nat.
Proof.
  assert (D : distinct_of (map fst rowsC) [0; 1; 2; 3; 4; 5]) by (split; [repeat constructor; lra|]; cbn; tauto).
  assert (Ev : effective_number rowsC independent 5).
  { replace 5 with (INR (length (valid rowsC))) by (cbn; lra). apply effective_independent. }
  destruct (choice_line exact_det exact_solve exact_inv no_optimum unit no_noise rowsC independent [1; 2; 3; 4; 5] [0; 1; 2; 3; 4; 5] 5 (VStr "Max_No_Breaks") 0)
    as (c & s & B & R1 & R2); auto using exact_det_ok, exact_solve_ok, exact_inv_ok, no_noise_ok, upto_named, usableC, sortedC, spreadC; try lia; try lra.
  destruct (R2 ltac:(auto) tt) as (f & g & E). destruct g. exists f. split; [exact E|].
  assert (Z : line_ss rowsC [1; 2; 3; 4; 5] 1 1 = 0) by (unfold line_ss, bsum, rowsC; cbn; field).
  assert (Z2 : 0 < flat_ss rowsC (weighted_mean rowsC)) by (unfold flat_ss, weighted_mean, bsum, rowsC; cbn; lra).
  destruct (R1 tt f tt E) as [[_ L]|[N _]].
  - destruct L as (_ & _ & _ & L & _). now rewrite L.
  - exfalso. apply N. split; auto. left. destruct (B 1 1) as [B1 _]. rewrite Z in B1.
    assert (P : 0 <= line_ss rowsC [1; 2; 3; 4; 5] c s) by apply line_ss_nonneg. lra.
Qed.
Lemma slope_error_case : exists f, run (col_x rowsC) (col_y rowsC) (col_e rowsC) independent (upto 0) tt = (Ok (Fitted f), tt) /\
  f_time_deriv_err f = map (fun _ => Fin (sqrt 2 / 10)) [0; 1; 2; 3; 4; 5] /\
  std_error rowsC delta (slope_coefficient rowsC [1; 2; 3; 4; 5]) = sqrt (1 / 10) /\ sqrt 2 / 10 < sqrt (1 / 10).
Proof.
  assert (D : distinct_of (map fst rowsC) [0; 1; 2; 3; 4; 5]) by (split; [repeat constructor; lra|]; cbn; tauto).
  destruct fitC as (f & E & L). exists f. split; [exact E|].
  assert (Sc : scatter rowsC [1; 2; 3; 4; 5] = 10) by (unfold scatter, off, centre, precision, bsum, rowsC; cbn; field).
  destruct (slope_error_independent rowsC delta [1; 2; 3; 4; 5] usableC sortedC spreadC ltac:(auto)) as [V1 V2].
  split; [|split].
  - rewrite (call_slope_error exact_det exact_solve exact_inv no_optimum unit no_noise rowsC independent [1; 2; 3; 4; 5] [0; 1; 2; 3; 4; 5] delta _ _ _ _
      exact_inv_ok usableC sortedC D (correlations_independent _) spreadC E L).
    apply map_ext. intros _. f_equal. rewrite V1, V2, Sc.
    assert (H : half_range [1; 2; 3; 4; 5] = 2) by (unfold half_range; cbn [hd last]; destruct (Req_EM_T 1 5); lra).
    assert (PV : pop_var (values rowsC) = 2) by (unfold pop_var, mean_of, rowsC; cbn; field).
    assert (P2 : 0 < sqrt 2) by (apply sqrt_lt_R0; lra). pose proof (sqrt_sqrt 2 ltac:(lra)) as SS.
    assert (S : value_scale rowsC = sqrt 2) by (unfold value_scale; rewrite PV; destruct (Req_EM_T (sqrt 2) 0); lra).
    rewrite H, S. replace 2 with (sqrt 2 * sqrt 2) at 1 by lra. field. lra.
  - rewrite V2, Sc. f_equal. field.
  - assert (P2 : 0 < sqrt 2) by (apply sqrt_lt_R0; lra).
    replace (sqrt 2 / 10) with (sqrt (2 / 100)).
    + apply sqrt_lt_1_alt. lra.
    + rewrite sqrt_div by lra. replace 100 with (10 ^ 2) by ring. rewrite sqrt_pow2 by lra. reflexivity.
Qed.
