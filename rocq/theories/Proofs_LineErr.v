(* Proofs for the error of a line: the coefficients of a line fitted to any values *)
From Coq Require Import String ZArith List Bool Reals Lra Lia Sorted Permutation.
From Verif Require Import Num Np NumFacts NpFacts Utilities Finders Stats FitCond Spec_Utilities Spec_Finders Spec_Stats
  Spec_FitCond LinR LeastSq Proofs_Utilities Proofs_Stats1 Proofs_Fit Proofs_FC1 Proofs_FC2 Proofs_FC3 Proofs_FC4 Proofs_FC5
  Proofs_FC6 Proofs_FC7 Proofs_FC8 Proofs_FC9 Proofs_FC10 Spec_FitErr Proofs_FC13 Proofs_FC14 Proofs_FC15 Spec_LineErr.
Import ListNotations.
Local Open Scope R_scope.
Local Open Scope list_scope.

Section Any.
  Variables (rows : list row) (xs : list R).
  Hypothesis Huse : usable rows.
  Hypothesis SP : 0 < scatter rows xs.
  Notation n := (length (valid rows)).
  Notation u := (precision rows).
  Notation U := (bsum n u).
  Notation mc := (mean_coefficient rows).
  Notation sc := (slope_coefficient rows xs).
  Notation lc := (line_coefficient rows xs).
  Notation o := (off rows xs).

  Lemma U_pos1 : 0 < U. Proof. exact (U_pos' rows Huse). Qed.
  Lemma mc_sum : bsum n mc = 1.
  Proof. unfold mean_coefficient. unfold Rdiv. rewrite bsum_scal_r. pose proof U_pos1. field. lra. Qed.
  Lemma sc_sum : bsum n sc = 0.
  Proof. unfold slope_coefficient, Rdiv. rewrite bsum_scal_r, (sum_off rows Huse xs). ring. Qed.
  Lemma lc_sum w : bsum n (lc w) = 1.
  Proof. unfold line_coefficient. rewrite bsum_plus, bsum_scal_r, mc_sum, sc_sum. ring. Qed.
  Lemma lc_at w (y : nat -> R) : bsum n (fun i => lc w i * y i) = bsum n (fun i => mc i * y i) + (w - centre rows xs) * bsum n (fun i => sc i * y i).
  Proof. rewrite <- bsum_scal, <- bsum_plus. apply bsum_ext. intros i _. unfold line_coefficient. ring. Qed.

  Variable y : nat -> R.
  Notation wm := (bsum n (fun i => mc i * y i)).
  Notation bs := (bsum n (fun i => sc i * y i)).
  Definition total (m s : R) : R := bsum n (fun i => u i * (y i - m - s * o i) ^ 2).
  Lemma total_split m s : total m s = total wm bs + (m - wm) ^ 2 * U + (s - bs) ^ 2 * scatter rows xs.
  Proof.
    pose proof U_pos1 as P.
    assert (N0 : bsum n (fun i => u i * (y i - wm)) = 0).
    { rewrite (bsum_ext n _ (fun i => u i * y i - u i * wm)) by (intros; ring). rewrite bsum_minus, bsum_scal_r.
      rewrite (bsum_ext n (fun i => mc i * y i) (fun i => / U * (u i * y i))).
      - rewrite bsum_scal. field. lra.
      - intros i _. unfold mean_coefficient. field. lra. }
    assert (N1 : bsum n (fun i => u i * o i * (y i - wm)) = bs * scatter rows xs).
    { rewrite (bsum_ext n _ (fun i => u i * o i * y i - wm * (u i * o i))) by (intros; ring).
      rewrite bsum_minus, bsum_scal, (sum_off rows Huse xs). rewrite <- (bsum_scal_r n (scatter rows xs) (fun i => sc i * y i)).
      rewrite (bsum_ext n (fun i => sc i * y i * scatter rows xs) (fun i => u i * o i * y i)); [ring|].
      intros i _. unfold slope_coefficient. field. lra. }
    set (w := wm) in *. set (b := bs) in *.
    assert (G : forall m s, total m s
       = bsum n (fun i => u i * (y i - w) ^ 2) + (m - w) ^ 2 * U + s ^ 2 * scatter rows xs
         - 2 * (m - w) * 0 - 2 * s * (b * scatter rows xs) + 2 * s * (m - w) * 0).
    { intros m' s'. rewrite <- N1. rewrite <- (sum_off rows Huse xs) at 2. rewrite <- N0 at 1. unfold scatter, total.
      rewrite <- !bsum_scal, <- !bsum_plus, <- !bsum_minus, <- !bsum_plus. apply bsum_ext. intros i Hi. ring. }
    rewrite (G m s), (G w b). ring.
  Qed.
  Lemma total_least m s : (forall m' s', total m s <= total m' s') -> m = wm /\ s = bs.
  Proof.
    intros H. specialize (H wm bs). rewrite (total_split m s) in H. pose proof U_pos1 as P.
    assert (A : 0 <= (m - wm) ^ 2 * U) by (apply Rmult_le_pos; [apply pow2_ge_0|lra]).
    assert (B : 0 <= (s - bs) ^ 2 * scatter rows xs) by (apply Rmult_le_pos; [apply pow2_ge_0|lra]).
    assert (Z1 : (m - wm) ^ 2 * U = 0) by lra. assert (Z2 : (s - bs) ^ 2 * scatter rows xs = 0) by lra.
    apply Rmult_integral in Z1 as [Z1|]; [|lra]. apply Rmult_integral in Z2 as [Z2|]; [|lra].
    rewrite <- Rsqr_pow2 in Z1, Z2. apply Rsqr_0_uniq in Z1, Z2. lra.
  Qed.
End Any.

Section Best.
  Variables (rows : list row) (xs : list R).
  Hypothesis Huse : usable rows.
  Hypothesis SP : 0 < scatter rows xs.
  Notation n := (length (valid rows)).
  Lemma best_line_values a s : best_line rows xs a s ->
    a = bsum n (fun i => line_coefficient rows xs (nth 0 xs 0) i * nth i (values rows) 0) /\
    s = bsum n (fun i => slope_coefficient rows xs i * nth i (values rows) 0).
  Proof.
    intros B. set (d := centre rows xs - nth 0 xs 0).
    destruct (total_least rows xs Huse SP (fun i => nth i (values rows) 0) (a + s * d) s) as [E1 E2].
    - intros m' s'. destruct (B (m' - s' * d) s') as [L _]. rewrite !(line_ss_off rows Huse xs) in L. fold d in L.
      replace (m' - s' * d + s' * d) with m' in L by ring. exact L.
    - split; auto. rewrite lc_at, <- E1, <- E2. unfold d. ring.
  Qed.
End Best.

(* the variances in the absence of correlations *)
Section Plain.
  Variables (rows : list row) (xs : list R).
  Hypothesis Huse : usable rows.
  Hypothesis SP : 0 < scatter rows xs.
  Notation n := (length (valid rows)).
  Notation u := (precision rows).
  Lemma pairs_plain a : pairs_of rows delta a = bsum n (fun i => a i ^ 2 / u i).
  Proof.
    unfold pairs_of. apply bsum_ext. intros i Hi. rewrite (bsum_ext n _ (fun j => delta i j * (a i / u i * a j))) by (intros; ring).
    rewrite bsum_delta by auto. unfold Rdiv. ring.
  Qed.
  Lemma pairs_plain_variance a : pairs_of rows delta a = variance_of rows delta a.
  Proof.
    rewrite pairs_plain. unfold variance_of. apply bsum_ext. intros i Hi.
    rewrite (bsum_ext n _ (fun j => delta i j * (a i * a j * (nth i (errors rows) 0 * nth j (errors rows) 0)))) by (intros; ring).
    rewrite bsum_delta by auto. unfold precision. pose proof (e_nz rows Huse i Hi). field. auto.
  Qed.
  Lemma pairs_slope : pairs_of rows delta (slope_coefficient rows xs) = / scatter rows xs.
  Proof.
    rewrite pairs_plain. rewrite (bsum_ext n _ (fun i => / scatter rows xs ^ 2 * (u i * off rows xs i ^ 2))).
    - rewrite bsum_scal. change (bsum n (fun i => u i * off rows xs i ^ 2)) with (scatter rows xs). field. lra.
    - intros i Hi. unfold slope_coefficient. pose proof (u_pos' rows Huse i Hi). field. split; lra.
  Qed.
  Lemma pairs_line w : pairs_of rows delta (line_coefficient rows xs w) = / bsum n u + (w - centre rows xs) ^ 2 / scatter rows xs.
  Proof.
    pose proof (U_pos1 rows Huse) as PU.
    rewrite pairs_plain. set (k := (w - centre rows xs) / scatter rows xs).
    rewrite (bsum_ext n _ (fun i => / bsum n u ^ 2 * u i + 2 * k / bsum n u * (u i * off rows xs i) + k ^ 2 * (u i * off rows xs i ^ 2))).
    - rewrite !bsum_plus, !bsum_scal, (sum_off rows Huse xs). change (bsum n (fun i => u i * off rows xs i ^ 2)) with (scatter rows xs).
      unfold k. field. split; lra.
    - intros i Hi. unfold line_coefficient, mean_coefficient, slope_coefficient, k. pose proof (u_pos' rows Huse i Hi). field. repeat split; lra.
  Qed.
  Lemma correlated_pos us w : 0 < half_range xs -> hd 0 us <= w -> 0 < correlated rows xs us delta w.
  Proof.
    intros HH Hw. unfold correlated. rewrite pairs_line, pairs_slope. pose proof (U_pos1 rows Huse) as PU.
    assert (0 < / bsum n u) by now apply Rinv_0_lt_compat.
    assert (0 < / scatter rows xs) by now apply Rinv_0_lt_compat.
    assert (0 <= (hd 0 xs - centre rows xs) ^ 2 / scatter rows xs) by (apply Rmult_le_pos; [apply pow2_ge_0|lra]).
    assert (0 <= half_range xs * (w - hd 0 us) * / scatter rows xs) by (repeat apply Rmult_le_pos; lra). lra.
  Qed.
End Plain.
