(* Proofs for the error of a line: the variances of its coefficients, and the loop over the draws *)
From Coq Require Import String ZArith List Bool Reals Lra Lia Sorted Permutation.
From Verif Require Import Num Np NumFacts NpFacts Utilities Finders Stats FitCond Spec_Utilities Spec_Finders Spec_Stats
  Spec_FitCond LinR LeastSq Proofs_Utilities Proofs_Stats1 Proofs_Fit Proofs_FC1 Proofs_FC2 Proofs_FC3 Proofs_FC4 Proofs_FC5
  Proofs_FC6 Proofs_FC7 Proofs_FC8 Proofs_FC9 Proofs_FC10 Spec_FitErr Proofs_FC13 Proofs_FC14 Proofs_FC15 Spec_LineErr Proofs_LineErr.
Import ListNotations.
Local Open Scope R_scope.
Local Open Scope list_scope.

(* ---- both matrices of lines 478-493 ---- *)
Section Products.
  Variables (n k : nat) (E b : rmat) (w ev : list R).
  Definition plain_product : rmat :=
    mm k (mm n (mm n (mm n (mm n (mm k b (tr E)) (diagR w)) (diagR ev)) (diagR w)) E) b.
  Lemma plain_pairs i j : plain_product i j = pairs_product n k E b delta w ev i j.
  Proof.
    unfold plain_product, pairs_product. set (X := mm n (mm n (mm k b (tr E)) (diagR w)) (diagR ev)).
    unfold mm at 1 5. apply bsum_ext. intros a _. f_equal. unfold mm at 1 4. apply bsum_ext. intros d Hd. f_equal.
    unfold mm at 1 2. apply bsum_ext. intros q Hq. f_equal. unfold mm. symmetry.
    rewrite (bsum_ext n _ (fun r => delta q r * X i r)); [apply bsum_delta; auto|].
    intros r _. unfold delta. rewrite PeanoNat.Nat.eqb_sym. ring.
  Qed.
End Products.

Section Value.
  Variable inv : nat -> (nat -> nat -> XR) -> res (nat -> nat -> XR).
  Hypothesis Hinv : inv_ok inv.
  Lemma param_values p best e E w ev L :
    finmat (npts p) best e E -> wdiag p = map Fin w -> length w = npts p -> err_var p = map Fin ev -> length ev = npts p ->
    finmat (npts p) (npts p) (lv p) L -> inj best (mm (npts p) (mm (npts p) (tr E) (diagR w)) E) ->
    exists p1 p2 b, param_var inv p best e = Ok (p1, p2) /\
      is_inverse best (mm (npts p) (mm (npts p) (tr E) (diagR w)) E) b /\
      forall i, (i < best)%nat -> p1 i = Fin (pairs_product (npts p) best E b delta w ev i i) /\ p2 i = Fin (pairs_product (npts p) best E b L w ev i i).
  Proof.
    intros He Hw Lw Hev Lev HL I. set (n := npts p) in *.
    assert (We : finmat n n (wmat p) (diagR w)) by (unfold wmat; rewrite Hw; now apply diagm_fin).
    assert (Ve : finmat n n (diagm (vec (err_var p))) (diagR ev)) by (rewrite Hev; now apply diagm_fin).
    assert (Te : finmat best n (transp e) (tr E)) by (intros i j Hi Hj; unfold transp, tr; now apply He).
    assert (M : finmat best best (mmul n (mmul n (transp e) (wmat p)) e) (mm n (mm n (tr E) (diagR w)) E)).
    { apply (mmul_fin n best best); auto. now apply (mmul_fin n best n). }
    destruct (Hinv best _ _ M I) as (B & b & EB & FB & IB).
    unfold param_var. fold n. rewrite EB. cbn [bind]. eexists. eexists. exists b. split; [reflexivity|]. split; [exact IB|].
    intros i Hi. cbv beta. split.
    - rewrite <- plain_pairs. unfold plain_product.
      refine (mmul_fin best best best _ _ _ _ _ FB i i Hi Hi).
      apply (mmul_fin n best best); auto. apply (mmul_fin n best n); auto. apply (mmul_fin n best n); auto.
      apply (mmul_fin n best n); auto. now apply (mmul_fin best best n).
    - unfold pairs_product.
      refine (mmul_fin best best best _ _ _ _ _ FB i i Hi Hi).
      apply (mmul_fin n best best); auto. apply (mmul_fin n best n); auto. apply (mmul_fin n best n); auto.
      apply (mmul_fin n best n); auto. apply (mmul_fin n best n); auto. now apply (mmul_fin best best n).
  Qed.
End Value.

Section Line.
  Variable det : nat -> (nat -> nat -> XR) -> XR.
  Variable solve : nat -> nat -> (nat -> nat -> XR) -> (nat -> nat -> XR) -> res (nat -> nat -> XR).
  Variable inv : nat -> (nat -> nat -> XR) -> res (nat -> nat -> XR).
  Variable least_squares : (list XR -> res (list XR)) -> list XR -> res (list (list XR) * list XR).
  Variable rng : Type.
  Variable randn : nat -> rng -> list XR * rng.
  Hypothesis Hdet : det_ok det.
  Hypothesis Hsolve : solve_ok solve.
  Hypothesis Hinv : inv_ok inv.
  Variables (rows : list row) (lvcov : nat -> nat -> XR) (x1 : R) (xr us vs : list R) (c : rmat).
  Notation xs := (x1 :: xr).
  Hypothesis Huse : usable rows.
  Hypothesis Hxs : sorted_positions rows xs.
  Hypothesis Hus : distinct_of (map fst rows) us.
  Hypothesis Hvs : distinct_of xs vs.
  Hypothesis Hc : correlations rows lvcov c.
  Hypothesis Hs : several x1 xr.
  Notation n := (nobs rows).
  Notation u := (precision rows).
  Notation U := (bsum n u).
  Notation xsc := (xscR xs).
  Notation ysc := (yscR rows).
  Notation y0 := (y0R rows).
  Notation wl := (wR rows).
  Notation ev := (evR rows).
  Notation nx := (normx xs).
  Notation cwv := (cw rows).
  Notation p := (prepare (col_x rows) (col_y rows) (col_e rows) lvcov).
  Notation Q := (prepare_fin rows lvcov xs us vs Huse Hxs Hus Hvs).
  Notation E2 := (E2 x1 xr).
  Notation tt_ := (tt_ x1 xr).
  Notation S0 := (bsum n (fun i => cwv * u i)).
  Notation S1 := (bsum n (fun i => cwv * u i * tt_ i)).
  Notation S2 := (bsum n (fun i => cwv * u i * tt_ i ^ 2)).
  Notation lc := (line_coefficient rows xs).
  Notation sc := (slope_coefficient rows xs).

  Lemma scatter_positive : 0 < scatter rows xs.
  Proof. apply scatter_pos; auto. now apply (spread_several rows x1 xr Hxs). Qed.

  Lemma line_vars : exists p1 p2, param_var inv p 2 (design (hd NaN (xf p) :: []) (xf p)) = Ok (p1, p2) /\
    p1 0%nat = Fin (pairs_of rows delta (lc x1) / ysc ^ 2) /\ p1 1%nat = Fin (xsc ^ 2 / ysc ^ 2 * pairs_of rows delta sc) /\
    p2 0%nat = Fin (pairs_of rows c (lc x1) / ysc ^ 2) /\ p2 1%nat = Fin (xsc ^ 2 / ysc ^ 2 * pairs_of rows c sc).
  Proof.
    pose proof (cw_pos rows Huse) as Pc. pose proof (Upos rows x1 xr Huse Hxs) as PU. pose proof (ysc_pos rows) as Py.
    pose proof (xsc_pos rows x1 xr Huse Hxs) as Px. pose proof scatter_positive as NZ.
    assert (P0 : 0 < S0) by (rewrite (S0_eq rows); now apply Rmult_lt_0_compat).
    destruct (param_values inv Hinv p 2 (design (hd NaN (xf p) :: []) (xf p)) E2 wl ev c) as (p1 & p2 & b & Ep & Ib & V).
    - rewrite Q. cbn [npts xf map hd].
      change (Fin (nx x1) :: map Fin (map nx xr)) with (map Fin (nx x1 :: map nx xr)).
      change [Fin (nx x1)] with (map Fin [nx x1]).
      intros i d Hi Hd. apply design_value; auto.
      + apply asc1.
      + exact (nxs_ascending rows x1 xr Huse Hxs).
      + change (nx x1 :: map nx xr) with (map nx xs). now rewrite map_length, (Lxs rows x1 xr Hxs).
    - now rewrite Q.
    - rewrite Q. apply wR_length.
    - now rewrite Q.
    - rewrite Q. apply evR_length.
    - exact (p_lv rows lvcov x1 xr us vs c Huse Hxs Hus Hvs Hc).
    - rewrite Q. cbn [npts]. pose proof (det_norm rows x1 xr Huse Hxs Hs) as D. unfold determined in D. rewrite normal_matrix_normal in D.
      cbn [weight] in D. change (nx x1 :: map nx xr) with (map nx xs) in D at 1. rewrite map_length, (Lxs rows x1 xr Hxs) in D. exact D.
    - assert (NP : npts p = n) by now rewrite Q. rewrite NP in *. exists p1, p2. split; [exact Ep|].
      destruct Ib as [R1 L1].
      pose proof (R1 0%nat 1%nat ltac:(lia) ltac:(lia)) as A1. pose proof (R1 1%nat 1%nat ltac:(lia) ltac:(lia)) as A2.
      pose proof (L1 1%nat 0%nat ltac:(lia) ltac:(lia)) as A3. pose proof (R1 0%nat 0%nat ltac:(lia) ltac:(lia)) as A4.
      unfold mm at 1 in A1. unfold mm at 1 in A2. unfold mm in A3 at 1. unfold mm at 1 in A4. rewrite !bsum_S, bsum_0 in A1, A2, A3, A4.
      rewrite (M00 rows x1 xr Huse), (M01 rows x1 xr Huse Hxs) in A1. rewrite (M10 rows x1 xr Huse Hxs), (M11 rows x1 xr Huse Hxs) in A2.
      rewrite (M00 rows x1 xr Huse), (M10 rows x1 xr Huse Hxs) in A3. rewrite (M00 rows x1 xr Huse), (M01 rows x1 xr Huse Hxs) in A4.
      rewrite delta_same in A2, A4. rewrite delta_diff in A1, A3 by discriminate.
      assert (B01 : b 0%nat 1%nat = - b 1%nat 1%nat * (S1 / S0)).
      { apply (Rmult_eq_reg_l S0); [|lra]. transitivity (- b 1%nat 1%nat * S1); [lra|field; lra]. }
      assert (B10 : b 1%nat 0%nat = - b 1%nat 1%nat * (S1 / S0)).
      { apply (Rmult_eq_reg_l S0); [|lra]. transitivity (- b 1%nat 1%nat * S1); [lra|field; lra]. }
      assert (B11 : b 1%nat 1%nat * (cwv / xsc ^ 2 * scatter rows xs) = 1).
      { rewrite <- (S2_eq rows x1 xr Huse Hxs). rewrite B01 in A2. rewrite <- A2. field. lra. }
      assert (B : b 1%nat 1%nat = xsc ^ 2 / (cwv * scatter rows xs)).
      { apply (Rmult_eq_reg_r (cwv / xsc ^ 2 * scatter rows xs)).
        - rewrite B11. field. repeat split; lra.
        - intros Z. rewrite Z in B11. lra. }
      assert (T0 : S1 / S0 = - (off rows xs 0%nat / xsc)).
      { pose proof (tt_off rows x1 xr Huse Hxs 0%nat (n_pos rows x1 xr Hxs)) as T. unfold Proofs_FC14.tt_ in T at 1. cbn [nth map] in T. lra. }
      assert (B00 : b 0%nat 0%nat = / (cwv * U) + b 1%nat 1%nat * (S1 / S0) ^ 2).
      { apply (Rmult_eq_reg_l S0); [|lra]. transitivity (1 - S1 * b 1%nat 0%nat); [lra|]. rewrite B10, <- (S0_eq rows). field. lra. }
      assert (G1 : forall i, (i < n)%nat -> mm 2 b (tr E2) 1%nat i = xsc / cwv * (sc i / u i)).
      { intros i Hi. unfold mm. rewrite !bsum_S, bsum_0. unfold tr. rewrite (E2_0 rows x1 xr), (E2_1 rows x1 xr Huse Hxs), B10 by auto.
        transitivity (b 1%nat 1%nat * (tt_ i - S1 / S0)); [ring|]. rewrite (tt_off rows x1 xr Huse Hxs), B by auto.
        unfold slope_coefficient. pose proof (u_pos' rows Huse i Hi). field. repeat split; lra. }
      assert (G2 : forall j, (j < n)%nat -> mm 2 E2 b j 1%nat = xsc / cwv * (sc j / u j)).
      { intros j Hj. unfold mm. rewrite !bsum_S, bsum_0. rewrite (E2_0 rows x1 xr), (E2_1 rows x1 xr Huse Hxs), B01 by auto.
        transitivity (b 1%nat 1%nat * (tt_ j - S1 / S0)); [ring|]. rewrite (tt_off rows x1 xr Huse Hxs), B by auto.
        unfold slope_coefficient. pose proof (u_pos' rows Huse j Hj). field. repeat split; lra. }
      assert (LC : forall i, (i < n)%nat -> / (cwv * U) - b 1%nat 1%nat * (S1 / S0) * (tt_ i - S1 / S0) = / cwv * (lc x1 i / u i)).
      { intros i Hi. rewrite (tt_off rows x1 xr Huse Hxs), B, T0 by auto. unfold line_coefficient, mean_coefficient, slope_coefficient.
        change (x1 - centre rows xs) with (off rows xs 0%nat). pose proof (u_pos' rows Huse i Hi). change (length (valid rows)) with n.
        field. repeat split; lra. }
      assert (G3 : forall i, (i < n)%nat -> mm 2 b (tr E2) 0%nat i = / cwv * (lc x1 i / u i)).
      { intros i Hi. rewrite <- LC by auto. unfold mm. rewrite !bsum_S, bsum_0. unfold tr. rewrite (E2_0 rows x1 xr), (E2_1 rows x1 xr Huse Hxs), B00, B01 by auto. ring. }
      assert (G4 : forall j, (j < n)%nat -> mm 2 E2 b j 0%nat = / cwv * (lc x1 j / u j)).
      { intros j Hj. rewrite <- LC by auto. unfold mm. rewrite !bsum_S, bsum_0. rewrite (E2_0 rows x1 xr), (E2_1 rows x1 xr Huse Hxs), B00, B10 by auto. ring. }
      assert (F0 : forall L, pairs_product n 2 E2 b L wl ev 0%nat 0%nat = pairs_of rows L (lc x1) / ysc ^ 2).
      { intros L. rewrite (pairs_value n 2 E2 b L wl ev (mean_of ev) (wv rows Huse)).
        rewrite (bsum2_ext n n _ (fun i j => / cwv * (lc x1 i / u i * L i j * lc x1 j))).
        - rewrite bsum2_scal. unfold pairs_of. change (length (valid rows)) with n. rewrite (cwm rows). pose proof (mean_ev_pos rows Huse). field. split; lra.
        - intros i j Hi Hj. rewrite G3, G4, (nth_w rows Huse) by auto. change (Proofs_FC5.u rows j) with (u j). pose proof (u_pos' rows Huse j Hj). pose proof (u_pos' rows Huse i Hi). field. repeat split; lra. }
      assert (F1 : forall L, pairs_product n 2 E2 b L wl ev 1%nat 1%nat = xsc ^ 2 / ysc ^ 2 * pairs_of rows L sc).
      { intros L. rewrite (pairs_value n 2 E2 b L wl ev (mean_of ev) (wv rows Huse)).
        rewrite (bsum2_ext n n _ (fun i j => xsc ^ 2 / cwv * (sc i / u i * L i j * sc j))).
        - rewrite bsum2_scal. unfold pairs_of. change (length (valid rows)) with n. rewrite (cwm rows). pose proof (mean_ev_pos rows Huse). field. split; lra.
        - intros i j Hi Hj. rewrite G1, G2, (nth_w rows Huse) by auto. change (Proofs_FC5.u rows j) with (u j). pose proof (u_pos' rows Huse j Hj). pose proof (u_pos' rows Huse i Hi). field. repeat split; lra. }
      destruct (V 0%nat ltac:(lia)) as [V1 V2]. destruct (V 1%nat ltac:(lia)) as [V3 V4].
      rewrite V1, V2, V3, V4, !F0, !F1. auto.
  Qed.

  (* the fit of any values at the same positions with the same weights *)
  Lemma any_fit Y : length Y = n -> exists r, brk_pt_fit det solve (xf p) (map Fin Y) (Some (wmat p)) []
    = Ok (CVec [Fin (bsum n (fun i => lc x1 i * nth i Y 0)); Fin (xsc * bsum n (fun i => sc i * nth i Y 0))], r).
  Proof.
    intros LY.
    pose proof (cw_pos rows Huse) as Pc. pose proof (xsc_pos rows x1 xr Huse Hxs) as Px. pose proof scatter_positive as NZ.
    assert (HX : length (nx x1 :: map nx xr) = n) by (change (nx x1 :: map nx xr) with (map nx xs); now rewrite map_length, (Lxs rows x1 xr Hxs)).
    assert (HL : length (nx x1 :: map nx xr) = length Y) by now rewrite HX.
    assert (HW : weights_ok (length (nx x1 :: map nx xr)) (Some (diagR wl))).
    { cbn [weights_ok]. split; [apply sym_diag|]. apply psd_diag; [|apply (wR_pos rows Huse)]. rewrite HX. apply wR_length. }
    destruct (fit_optimum det solve Hdet Hsolve (nx x1) (map nx xr) Y [] (Some (diagR wl)) HL (nxs_ascending rows x1 xr Huse Hxs) (asc1 _) HW (det_norm rows x1 xr Huse Hxs Hs))
      as (beta & E & Lb & Hopt).
    destruct beta as [|b0 [|b1 [|]]]; try discriminate Lb.
    set (d := centre rows xs - x1).
    assert (TT : forall i, (i < n)%nat -> nth i (nx x1 :: map nx xr) 0 - nx x1 = (off rows xs i + d) / xsc).
    { intros i Hi. change (nx x1 :: map nx xr) with (map nx xs). rewrite (nth_nx rows x1 xr Hxs) by auto. unfold normx, off, d. field. lra. }
    assert (W : forall b0 b1, weighted_ss (Some (diagR wl)) (residuals [nx x1] (nx x1 :: map nx xr) Y [b0; b1])
        = cwv * total rows xs (fun i => nth i Y 0) (b0 + b1 / xsc * d) (b1 / xsc)).
    { intros a0 a1. rewrite weighted_ss_line.
      - rewrite HX. unfold total. change (length (valid rows)) with n. rewrite <- bsum_scal. apply bsum_ext. intros i Hi.
        rewrite TT, (nth_w rows Huse) by auto. change (Proofs_FC5.u rows i) with (u i). field. lra.
      - exact (nxs_ascending rows x1 xr Huse Hxs).
      - rewrite HX. symmetry. apply wR_length || (rewrite wR_length; reflexivity).
      - congruence. }
    destruct (total_least rows xs Huse NZ (fun i => nth i Y 0) (b0 + b1 / xsc * d) (b1 / xsc)) as [T1 T2].
    { intros m' s'. destruct (Hopt [m' - s' * d; s' * xsc] eq_refl) as [O _]. rewrite !W in O.
      apply Rmult_le_reg_l in O; auto. replace (s' * xsc / xsc) with s' in O by (field; lra). replace (m' - s' * d + s' * d) with m' in O by ring. exact O. }
    assert (X : xf p = map Fin (map nx xs)) by now rewrite Q.
    assert (Wm : finmat n n (wmat p) (diagR wl)).
    { unfold wmat. rewrite Q. cbn [wdiag]. apply diagm_fin. apply wR_length. }
    rewrite X. rewrite (brk_weights_ext det solve _ _ (wmat p) (fun i j => Fin (diagR wl i j))).
    2:{ intros i j. rewrite !map_length, (Lxs rows x1 xr Hxs). apply Wm. }
    assert (E0 : bsum n (fun i => lc x1 i * nth i Y 0) = b0).
    { pose proof (lc_at rows xs x1 (fun i => nth i Y 0)) as LA. cbv beta in LA. change (length (valid rows)) with n in LA, T1, T2.
      rewrite LA, <- T1, <- T2. unfold d. field. lra. }
    assert (E1 : xsc * bsum n (fun i => sc i * nth i Y 0) = b1).
    { change (length (valid rows)) with n in T2. rewrite <- T2. field. lra. }
    rewrite E0, E1. eexists. exact E.
  Qed.
End Line.
