(* Proofs for fit_cond: the error of the mean and of the slope *)
From Coq Require Import String ZArith List Bool Reals Lra Lia Sorted Permutation.
From Verif Require Import Num Np NumFacts NpFacts Utilities Finders Stats FitCond Spec_Utilities Spec_Finders Spec_Stats
  Spec_FitCond LinR LeastSq Proofs_Utilities Proofs_Stats1 Proofs_Fit Proofs_FC1 Proofs_FC2 Proofs_FC3 Proofs_FC4 Proofs_FC5
  Proofs_FC6 Proofs_FC7 Proofs_FC8 Proofs_FC9 Proofs_FC10 Spec_FitErr Proofs_FC13.
Import ListNotations.
Local Open Scope R_scope.
Local Open Scope list_scope.

(* ---- sums ---- *)
Lemma bsum2_ext n m f g : (forall i j, (i < n)%nat -> (j < m)%nat -> f i j = g i j) ->
  bsum n (fun i => bsum m (f i)) = bsum n (fun i => bsum m (g i)).
Proof. intros E. apply bsum_ext. intros i Hi. apply bsum_ext. intros j Hj. auto. Qed.
Lemma bsum2_scal n m c f : bsum n (fun i => bsum m (fun j => c * f i j)) = c * bsum n (fun i => bsum m (f i)).
Proof. rewrite <- bsum_scal. apply bsum_ext. intros i _. apply bsum_scal. Qed.
Lemma bsum2_le n m f g : (forall i j, (i < n)%nat -> (j < m)%nat -> f i j <= g i j) ->
  bsum n (fun i => bsum m (f i)) <= bsum n (fun i => bsum m (g i)).
Proof. intros E. apply bsum_le. intros i Hi. apply bsum_le. intros j Hj. auto. Qed.

Section Reported.
  Variable det : nat -> (nat -> nat -> XR) -> XR.
  Variable solve : nat -> nat -> (nat -> nat -> XR) -> (nat -> nat -> XR) -> res (nat -> nat -> XR).
  Variable inv : nat -> (nat -> nat -> XR) -> res (nat -> nat -> XR).
  Variable least_squares : (list XR -> res (list XR)) -> list XR -> res (list (list XR) * list XR).
  Variable rng : Type.
  Variable randn : nat -> rng -> list XR * rng.
  Hypothesis Hinv : inv_ok inv.
  Variables (rows : list row) (lvcov : nat -> nat -> XR) (x1 : R) (xr us vs : list R) (c : rmat).
  Notation xs := (x1 :: xr).
  Hypothesis Huse : usable rows.
  Hypothesis Hxs : sorted_positions rows xs.
  Hypothesis Hus : distinct_of (map fst rows) us.
  Hypothesis Hvs : distinct_of xs vs.
  Hypothesis Hc : correlations rows lvcov c.
  Notation n := (nobs rows).
  Notation u := (precision rows).
  Notation U := (bsum n u).
  Notation xsc := (xscR xs).
  Notation ysc := (yscR rows).
  Notation wl := (wR rows).
  Notation ev := (evR rows).
  Notation nx := (normx xs).
  Notation cwv := (cw rows).
  Notation p := (prepare (col_x rows) (col_y rows) (col_e rows) lvcov).
  Notation Q := (prepare_fin rows lvcov xs us vs Huse Hxs Hus Hvs).

  Lemma p_npts : npts p = n. Proof. now rewrite Q. Qed.
  Lemma p_lv : finmat (npts p) (npts p) (lv p) c.
  Proof.
    rewrite Q. cbn [npts lv]. intros i j Hi Hj. unfold lvR.
    unfold correlations in Hc. rewrite valid_positions_good in Hc by (unfold col_x, col_y; now rewrite !map_length).
    rewrite good_rows in Hc. apply Hc; unfold nobs in Hi, Hj; rewrite valid_length; auto.
  Qed.
  Lemma p_wdiag : wdiag p = map Fin wl. Proof. now rewrite Q. Qed.
  Lemma p_ev : err_var p = map Fin ev. Proof. now rewrite Q. Qed.
  Lemma wv i : (i < n)%nat -> nth i wl 0 * nth i ev 0 = mean_of ev.
  Proof.
    intros Hi. rewrite (nth_w rows Huse), (nth_ev rows Huse) by auto. unfold cw.
    pose proof (ysc_pos rows). pose proof (u_pos rows Huse i Hi). field. split; lra.
  Qed.
  Lemma cwm : cwv = mean_of ev * ysc ^ 2. Proof. reflexivity. Qed.
  Lemma Upos : 0 < U. Proof. exact (U_pos rows x1 xr Huse Hxs). Qed.

  (* the constant *)
  Definition E1 : rmat := fun _ _ => 1.
  Lemma M1 : mm n (mm n (tr E1) (diagR wl)) E1 0%nat 0%nat = cwv * U.
  Proof.
    unfold mm at 1. rewrite <- bsum_scal. apply bsum_ext. intros j Hj. unfold mm. rewrite (bsum_diag_l n wl j) by auto.
    rewrite (nth_w rows Huse) by auto. unfold E1, tr. change (u j) with (Proofs_FC5.u rows j). ring.
  Qed.
  Lemma constant_var e : (forall i, e i 0%nat = Fin 1) ->
    exists p1 p2, param_var inv p 1 e = Ok (p1, p2) /\ p2 0%nat = Fin (mean_pairs rows c / (ysc * U) ^ 2).
  Proof.
    intros He. pose proof (cw_pos rows Huse) as Pc. pose proof Upos as PU. pose proof (ysc_pos rows) as Py.
    destruct (param_value inv Hinv p 1 e E1 wl ev c) as (p1 & p2 & b & Ep & Ib & V).
    - intros i j Hi Hj. assert (j = 0%nat) by lia. subst. apply He.
    - apply p_wdiag.
    - rewrite p_npts. apply wR_length.
    - apply p_ev.
    - rewrite p_npts. apply evR_length.
    - apply p_lv.
    - rewrite p_npts. intros x Hx i Hi. assert (i = 0%nat) by lia. subst. specialize (Hx 0%nat ltac:(lia)). unfold mv in Hx.
      rewrite bsum_S, bsum_0, M1 in Hx. assert (Z : cwv * U * x 0%nat = 0) by lra.
      apply Rmult_integral in Z as [Z|]; auto. apply Rmult_integral in Z as [|]; lra.
    - exists p1, p2. split; [exact Ep|]. rewrite V by lia. f_equal. rewrite p_npts in *.
      rewrite (pairs_value n 1 E1 b c wl ev (mean_of ev) wv).
      destruct Ib as [Ib _]. specialize (Ib 0%nat 0%nat ltac:(lia) ltac:(lia)). unfold mm at 1 in Ib.
      rewrite bsum_S, bsum_0, M1, delta_same in Ib.
      assert (B : b 0%nat 0%nat = / (cwv * U)).
      { apply (Rmult_eq_reg_l (cwv * U)); [|apply Rmult_integral_contrapositive_currified; lra]. rewrite Rinv_r; [lra|apply Rmult_integral_contrapositive_currified; lra]. }
      unfold mean_pairs. change (length (valid rows)) with n.
      rewrite (bsum2_ext n n _ (fun i j => / (cwv * U ^ 2) * (c i j * u j))).
      + rewrite bsum2_scal. rewrite cwm. pose proof (mean_ev_pos rows Huse). field. repeat split; lra.
      + intros i j Hi Hj. unfold mm. rewrite !bsum_S, !bsum_0, (nth_w rows Huse), B by auto. unfold tr, E1.
        change (Proofs_FC5.u rows j) with (u j). field. repeat split; lra.
  Qed.

  Lemma constant_error o nbr1 t g f g' : 0 <= mean_pairs rows c ->
    evaluate det solve inv least_squares rng randn p o nbr1 t 1 g = (Ok f, g') ->
    f_condslope_err f = map (fun _ => Fin (sqrt (mean_pairs rows c) / U)) us /\ f_time_deriv_err f = map (fun _ => NaN) us /\ g' = g.
  Proof.
    intros Hq. unfold evaluate. cbn [Nat.ltb Nat.leb].
    destruct (constant_var (design (hd NaN (xf p) :: []) (xf p)) (fun i => design_col0 _ _ i)) as (p1 & p2 & Ep & V).
    change (@nnan XR _) with NaN. rewrite Ep. cbn [Nat.eqb]. intros E.
    pose proof (f_equal snd E) as Eg. cbn [snd] in Eg. apply (f_equal fst) in E. cbn [fst] in E. apply ok_inj in E. subst f.
    cbn [f_condslope_err f_time_deriv_err]. rewrite V. split; [|split; [|now symmetry]].
    - rewrite Q. cbn [xfit y_scale]. rewrite !map_map. apply map_ext. intros _.
      cbn [nmul nofZ XR_Num xmul]. rewrite Rmult_1_l.
      pose proof Upos as PU. pose proof (ysc_pos rows) as Py.
      assert (P1 : 0 < ysc * U) by now apply Rmult_lt_0_compat.
      assert (P2 : 0 < (ysc * U) ^ 2) by now apply pow_lt.
      assert (Pq : 0 <= mean_pairs rows c / (ysc * U) ^ 2).
      { apply Rmult_le_pos; auto. left. now apply Rinv_0_lt_compat. }
      cbn [nsqrt XR_Num XR_NumT xsqrt]. destruct (Rlt_dec _ 0) as [L|_]; [lra|]. cbn [xmul]. f_equal.
      rewrite sqrt_div by auto. rewrite (sqrt_pow2 (ysc * U)) by lra. field. lra.
    - rewrite Q. cbn [xfit]. now rewrite !map_map.
  Qed.

  (* the line *)
  Definition E2 : rmat := Fmat [nx x1] (nx x1 :: map nx xr).
  Definition tt_ (i : nat) : R := nth i (map nx xs) 0 - nx x1.
  Lemma E2_0 i : (i < n)%nat -> E2 i 0%nat = 1. Proof. reflexivity. Qed.
  Lemma E2_1 i : (i < n)%nat -> E2 i 1%nat = tt_ i.
  Proof.
    intros Hi. pose proof (nxs_ascending rows x1 xr Huse Hxs 0%nat i) as A.
    rewrite map_length, (Lxs rows x1 xr Hxs) in A. specialize (A ltac:(split; [lia|exact Hi])).
    unfold E2, Fmat, tt_. change (nx x1 :: map nx xr) with (map nx xs). change (nth 0 (map nx xs) 0) with (nx x1) in A.
    generalize dependent (nth i (map nx xs) 0). intros z Hz. cbn [basis nth length].
    change (Nat.ltb 1 1) with false. cbn iota. now rewrite Rmax_right by lra.
  Qed.
  Notation S0 := (bsum n (fun i => cwv * u i)).
  Notation S1 := (bsum n (fun i => cwv * u i * tt_ i)).
  Notation S2 := (bsum n (fun i => cwv * u i * tt_ i ^ 2)).
  Notation M := (mm n (mm n (tr E2) (diagR wl)) E2).
  Lemma M_entry a d : M a d = bsum n (fun i => cwv * u i * (E2 i a * E2 i d)).
  Proof.
    unfold mm at 1. apply bsum_ext. intros j Hj. unfold mm. rewrite (bsum_diag_l n wl j) by auto.
    rewrite (nth_w rows Huse) by auto. unfold tr. change (u j) with (Proofs_FC5.u rows j). ring.
  Qed.
  Lemma M00 : M 0%nat 0%nat = S0. Proof. rewrite M_entry. apply bsum_ext. intros i Hi. rewrite E2_0 by auto. ring. Qed.
  Lemma M01 : M 0%nat 1%nat = S1. Proof. rewrite M_entry. apply bsum_ext. intros i Hi. rewrite E2_0, E2_1 by auto. ring. Qed.
  Lemma M10 : M 1%nat 0%nat = S1. Proof. rewrite M_entry. apply bsum_ext. intros i Hi. rewrite E2_0, E2_1 by auto. ring. Qed.
  Lemma M11 : M 1%nat 1%nat = S2. Proof. rewrite M_entry. apply bsum_ext. intros i Hi. rewrite E2_1 by auto. ring. Qed.
  Lemma S0_eq : S0 = cwv * U. Proof. apply bsum_scal. Qed.
  Lemma tt_off i : (i < n)%nat -> tt_ i - S1 / S0 = off rows xs i / xsc.
  Proof.
    intros Hi. pose proof (cw_pos rows Huse) as Pc. pose proof Upos as PU. pose proof (xsc_pos rows x1 xr Huse Hxs) as Px.
    assert (T : forall j, (j < n)%nat -> tt_ j = (nth j xs 0 - x1) / xsc).
    { intros j Hj. unfold tt_. rewrite (nth_nx rows x1 xr Hxs) by auto. unfold normx. field. lra. }
    rewrite (bsum_ext n (fun i => cwv * u i * tt_ i) (fun i => cwv / xsc * (u i * nth i xs 0 - u i * x1))).
    2:{ intros j Hj. rewrite T by auto. field. lra. }
    rewrite S0_eq, bsum_scal, bsum_minus, bsum_scal_r, T by auto. unfold off, centre. change (length (valid rows)) with n.
    field. repeat split; lra.
  Qed.
  Lemma S2_eq : S2 - S1 ^ 2 / S0 = cwv / xsc ^ 2 * scatter rows xs.
  Proof.
    pose proof (cw_pos rows Huse) as Pc. pose proof Upos as PU. pose proof (xsc_pos rows x1 xr Huse Hxs) as Px.
    assert (P0 : 0 < S0) by (rewrite S0_eq; now apply Rmult_lt_0_compat).
    unfold scatter. change (length (valid rows)) with n. rewrite <- bsum_scal.
    rewrite (bsum_ext n (fun i => cwv / xsc ^ 2 * (u i * off rows xs i ^ 2))
      (fun i => cwv * u i * tt_ i ^ 2 - (2 * (S1 / S0)) * (cwv * u i * tt_ i) + (S1 / S0) ^ 2 * (cwv * u i))).
    - rewrite bsum_plus, bsum_minus, !bsum_scal. rewrite <- (bsum_scal n cwv u). field. lra.
    - intros i Hi. assert (O : off rows xs i = xsc * (tt_ i - S1 / S0)) by (rewrite tt_off by auto; field; lra).
      rewrite O. generalize (S1 / S0). intros z. field. lra.
  Qed.

  Lemma line_var : several x1 xr -> exists p1 p2, param_var inv p 2 (design (hd NaN (xf p) :: []) (xf p)) = Ok (p1, p2) /\
    scatter rows xs <> 0 /\ p2 1%nat = Fin (xsc ^ 2 / ysc ^ 2 * (slope_pairs rows c xs / scatter rows xs ^ 2)).
  Proof.
    intros Hs. pose proof (cw_pos rows Huse) as Pc. pose proof Upos as PU. pose proof (ysc_pos rows) as Py.
    pose proof (xsc_pos rows x1 xr Huse Hxs) as Px.
    assert (P0 : 0 < S0) by (rewrite S0_eq; now apply Rmult_lt_0_compat).
    destruct (param_value inv Hinv p 2 (design (hd NaN (xf p) :: []) (xf p)) E2 wl ev c) as (p1 & p2 & b & Ep & Ib & V).
    - rewrite p_npts, Q. cbn [xf map hd].
      change (Fin (nx x1) :: map Fin (map nx xr)) with (map Fin (nx x1 :: map nx xr)).
      change [Fin (nx x1)] with (map Fin [nx x1]).
      intros i d Hi Hd. apply design_value; auto.
      + apply asc1.
      + exact (nxs_ascending rows x1 xr Huse Hxs).
      + change (nx x1 :: map nx xr) with (map nx xs). now rewrite map_length, (Lxs rows x1 xr Hxs).
    - apply p_wdiag.
    - rewrite p_npts. apply wR_length.
    - apply p_ev.
    - rewrite p_npts. apply evR_length.
    - apply p_lv.
    - rewrite p_npts. pose proof (det_norm rows x1 xr Huse Hxs Hs) as D. unfold determined in D. rewrite normal_matrix_normal in D.
      cbn [weight] in D. change (nx x1 :: map nx xr) with (map nx xs) in D at 1. rewrite map_length, (Lxs rows x1 xr Hxs) in D. exact D.
    - exists p1, p2. split; [exact Ep|]. rewrite p_npts in *.
      destruct Ib as [R1 L1].
      pose proof (R1 0%nat 1%nat ltac:(lia) ltac:(lia)) as A1. pose proof (R1 1%nat 1%nat ltac:(lia) ltac:(lia)) as A2.
      pose proof (L1 1%nat 0%nat ltac:(lia) ltac:(lia)) as A3.
      unfold mm at 1 in A1. unfold mm at 1 in A2. unfold mm in A3 at 1. rewrite !bsum_S, bsum_0 in A1, A2, A3. rewrite M00, M01 in A1. rewrite M10, M11 in A2. rewrite M00, M10 in A3.
      rewrite delta_same in A2. rewrite delta_diff in A1, A3 by discriminate.
      assert (B01 : b 0%nat 1%nat = - b 1%nat 1%nat * (S1 / S0)).
      { apply (Rmult_eq_reg_l S0); [|lra]. transitivity (- b 1%nat 1%nat * S1); [lra|field; lra]. }
      assert (B10 : b 1%nat 0%nat = - b 1%nat 1%nat * (S1 / S0)).
      { apply (Rmult_eq_reg_l S0); [|lra]. transitivity (- b 1%nat 1%nat * S1); [lra|field; lra]. }
      assert (B11 : b 1%nat 1%nat * (cwv / xsc ^ 2 * scatter rows xs) = 1).
      { rewrite <- S2_eq. rewrite B01 in A2. rewrite <- A2. field. lra. }
      assert (NZ : scatter rows xs <> 0) by (intros Z; rewrite Z in B11; lra).
      split; auto. rewrite V by lia. f_equal.
      assert (B : b 1%nat 1%nat = xsc ^ 2 / (cwv * scatter rows xs)).
      { apply (Rmult_eq_reg_r (cwv / xsc ^ 2 * scatter rows xs)).
        - rewrite B11. field. repeat split; auto; lra.
        - intros Z. rewrite Z in B11. lra. }
      rewrite (pairs_value n 2 E2 b c wl ev (mean_of ev) wv).
      rewrite (bsum2_ext n n _ (fun i j => xsc ^ 2 / (cwv * scatter rows xs ^ 2) * (off rows xs i * c i j * (off rows xs j * u j)))).
      + rewrite bsum2_scal. unfold slope_pairs. change (length (valid rows)) with n. rewrite cwm.
        pose proof (mean_ev_pos rows Huse). field. repeat split; auto; lra.
      + intros i j Hi Hj.
        assert (G1 : mm 2 b (tr E2) 1%nat i = xsc * off rows xs i / (cwv * scatter rows xs)).
        { unfold mm. rewrite !bsum_S, bsum_0. unfold tr. rewrite E2_0, E2_1, B10 by auto.
          transitivity (b 1%nat 1%nat * (tt_ i - S1 / S0)); [ring|]. rewrite tt_off, B by auto. field. repeat split; auto; lra. }
        assert (G2 : mm 2 E2 b j 1%nat = xsc * off rows xs j / (cwv * scatter rows xs)).
        { unfold mm. rewrite !bsum_S, bsum_0. rewrite E2_0, E2_1, B01 by auto.
          transitivity (b 1%nat 1%nat * (tt_ j - S1 / S0)); [ring|]. rewrite tt_off, B by auto. field. repeat split; auto; lra. }
        rewrite G1, G2, (nth_w rows Huse) by auto. change (Proofs_FC5.u rows j) with (u j). field. repeat split; auto; lra.
  Qed.

  Lemma line_error o nbr1 t g f g' : several x1 xr ->
    evaluate det solve inv least_squares rng randn p o nbr1 t 2 g = (Ok f, g') ->
    scatter rows xs <> 0 /\
    f_time_deriv_err f = map (fun _ => Fin (slope_pairs rows c xs / scatter rows xs ^ 2 * (xsc / ysc))) us.
  Proof.
    intros Hs. unfold evaluate. cbn [Nat.ltb Nat.leb]. destruct (line_var Hs) as (p1 & p2 & Ep & NZ & V).
    change (@nnan XR _) with NaN. rewrite Ep. cbn [Nat.eqb].
    match goal with |- context [let '(err, g') := ?X in _] => destruct X as [[err|] g''] end; [|discriminate].
    intros E. apply (f_equal fst) in E. cbn [fst] in E. apply ok_inj in E. subst f. split; auto.
    cbn [f_time_deriv_err]. rewrite V, Q. cbn [xfit y_scale x_scale]. rewrite !map_map. apply map_ext. intros _.
    pose proof (ysc_pos rows) as Py. pose proof (xsc_pos rows x1 xr Huse Hxs) as Px.
    cbn [nmul nofZ XR_Num xmul]. rewrite ndiv_fin by lra. cbn [xmul]. f_equal. field. repeat split; auto; lra.
  Qed.
End Reported.

(* ---- the reported error and the standard error ---- *)
Section Standard.
  Variables (rows : list row) (c : rmat).
  Hypothesis Huse : usable rows.
  Notation n := (length (valid rows)).
  Notation e i := (nth i (errors rows) 0).
  Notation u := (precision rows).
  Lemma e_nz i : (i < n)%nat -> e i <> 0.
  Proof. apply (es_nz rows Huse). Qed.
  Lemma u_pos' i : (i < n)%nat -> 0 < u i.
  Proof. apply (u_pos rows Huse). Qed.
  Lemma n_pos' : (0 < n)%nat.
  Proof. destruct Huse as [N _]. destruct (valid rows); [now destruct N|cbn; lia]. Qed.
  Lemma U_pos' : 0 < bsum n u.
  Proof.
    pose proof n_pos' as N. pose proof u_pos' as P. destruct n as [|k]; [lia|]. rewrite bsum_S.
    assert (0 < u 0%nat) by (apply P; lia).
    assert (0 <= bsum k (fun i => u (S i))) by (apply bsum_nonneg; intros i Hi; left; apply P; lia). lra.
  Qed.
  (* the sum over the pairs with both errors *)
  Definition both : R := bsum n (fun i => bsum n (fun j => c i j * (/ e i * / e j))).
  Lemma variance_mean : variance_of rows c (mean_coefficient rows) = both / bsum n u ^ 2.
  Proof.
    pose proof U_pos' as P. unfold variance_of, both.
    rewrite (bsum2_ext n n _ (fun i j => / bsum n u ^ 2 * (c i j * (/ e i * / e j)))).
    - rewrite bsum2_scal. field. lra.
    - intros i j Hi Hj. unfold mean_coefficient. unfold precision at 1 3. pose proof (e_nz i Hi). pose proof (e_nz j Hj). field. repeat split; auto; lra.
  Qed.
  Lemma sqrt_mean q : 0 <= q -> sqrt q / bsum n u = sqrt (q / bsum n u ^ 2).
  Proof.
    intros Hq. pose proof U_pos' as P. rewrite sqrt_div by (auto; now apply pow_lt). now rewrite sqrt_pow2 by lra.
  Qed.
  Lemma pairs_independent : (forall i j, (i < n)%nat -> (j < n)%nat -> c i j = delta i j) -> mean_pairs rows c = both.
  Proof.
    intros D. apply bsum2_ext. intros i j Hi Hj. rewrite D by auto. unfold delta. destruct (Nat.eqb_spec i j) as [->|]; [|ring].
    unfold precision. pose proof (e_nz j Hj). field. auto.
  Qed.
  Lemma pairs_equal s : (forall i, (i < n)%nat -> e i = s) -> mean_pairs rows c = both.
  Proof.
    intros D. apply bsum2_ext. intros i j Hi Hj. unfold precision. pose proof (e_nz j Hj). rewrite (D i Hi), <- (D j Hj). field. auto.
  Qed.
  Lemma pairs_ge : (forall i j, (i < n)%nat -> (j < n)%nat -> c i j = c j i /\ 0 <= c i j) -> both <= mean_pairs rows c.
  Proof.
    intros D.
    assert (E : mean_pairs rows c = bsum n (fun i => bsum n (fun j => c i j * ((u i + u j) / 2)))).
    { assert (Sw : mean_pairs rows c = bsum n (fun i => bsum n (fun j => c i j * u i))).
      { unfold mean_pairs. rewrite (bsum_swap n n (fun i j => c i j * u j)). apply bsum2_ext. intros i j Hi Hj. now rewrite (proj1 (D i j Hi Hj)). }
      assert (H2 : mean_pairs rows c + mean_pairs rows c = 2 * bsum n (fun i => bsum n (fun j => c i j * ((u i + u j) / 2)))).
      { rewrite Sw at 1. unfold mean_pairs. rewrite <- bsum2_scal, <- bsum_plus. apply bsum_ext. intros i Hi. rewrite <- bsum_plus.
        apply bsum_ext. intros j Hj. field. }
      lra. }
    rewrite E. apply bsum2_le. intros i j Hi Hj. apply Rmult_le_compat_l; [apply D; auto|].
    unfold precision. pose proof (e_nz i Hi). pose proof (e_nz j Hj).
    replace (1 / e i ^ 2) with ((/ e i) ^ 2) by (field; auto). replace (1 / e j ^ 2) with ((/ e j) ^ 2) by (field; auto).
    pose proof (pow2_ge_0 (/ e i - / e j)). lra.
  Qed.

  (* the slope *)
  Variable xs : list R.
  Lemma variance_slope_independent : scatter rows xs <> 0 ->
    (forall i j, (i < n)%nat -> (j < n)%nat -> c i j = delta i j) ->
    slope_pairs rows c xs / scatter rows xs ^ 2 = variance_of rows c (slope_coefficient rows xs) /\
    variance_of rows c (slope_coefficient rows xs) = / scatter rows xs.
  Proof.
    intros NZ D.
    assert (A : slope_pairs rows c xs = scatter rows xs).
    { unfold slope_pairs. unfold scatter. apply bsum_ext. intros i Hi.
      rewrite (bsum_ext n _ (fun j => delta i j * (u j * (off rows xs i * off rows xs j)))).
      - rewrite bsum_delta by auto. ring.
      - intros j Hj. rewrite D by auto. ring. }
    assert (B : variance_of rows c (slope_coefficient rows xs) = / scatter rows xs).
    { unfold variance_of. transitivity (bsum n (fun i => / scatter rows xs ^ 2 * (u i * off rows xs i ^ 2))).
      - apply bsum_ext. intros i Hi.
        rewrite (bsum_ext n _ (fun j => delta i j * (slope_coefficient rows xs i * slope_coefficient rows xs j * (e i * e j)))).
        + rewrite bsum_delta by auto. unfold slope_coefficient. unfold precision. pose proof (e_nz i Hi). field. auto.
        + intros j Hj. rewrite D by auto. ring.
      - rewrite bsum_scal. change (bsum n (fun i => u i * off rows xs i ^ 2)) with (scatter rows xs). field. auto. }
    split; auto. rewrite B, A. field. auto.
  Qed.

  Notation ys i := (nth i (values rows) 0).
  Lemma values_length : length (values rows) = n. Proof. unfold values. apply map_length. Qed.
  Lemma sum_off : bsum n (fun i => u i * off rows xs i) = 0.
  Proof.
    pose proof U_pos' as P. unfold off. rewrite (bsum_ext n _ (fun i => u i * nth i xs 0 - u i * centre rows xs)) by (intros; ring).
    rewrite bsum_minus, bsum_scal_r. unfold centre. field. lra.
  Qed.
  Lemma line_ss_off a s : line_ss rows xs a s
    = bsum n (fun i => u i * (ys i - (a + s * (centre rows xs - nth 0 xs 0)) - s * off rows xs i) ^ 2).
  Proof.
    unfold line_ss. rewrite values_length. apply bsum_ext. intros i Hi. unfold precision, off. pose proof (e_nz i Hi). field. auto.
  Qed.
  Definition best_slope : R := bsum n (fun i => slope_coefficient rows xs i * ys i).
  Lemma best_decomposition m s : scatter rows xs <> 0 ->
    bsum n (fun i => u i * (ys i - m - s * off rows xs i) ^ 2)
    = bsum n (fun i => u i * (ys i - weighted_mean rows - best_slope * off rows xs i) ^ 2)
      + (m - weighted_mean rows) ^ 2 * bsum n u + (s - best_slope) ^ 2 * scatter rows xs.
  Proof.
    intros NZ. set (w := weighted_mean rows).
    assert (N0 : bsum n (fun i => u i * (ys i - w)) = 0).
    { rewrite (bsum_ext n _ (fun i => u i * ys i - u i * w)) by (intros; ring). rewrite bsum_minus, bsum_scal_r.
      unfold w, weighted_mean. rewrite values_length. pose proof U_pos' as P.
      rewrite (bsum_ext n (fun i => ys i / e i ^ 2) (fun i => u i * ys i)).
      - change (bsum n (fun i => 1 / e i ^ 2)) with (bsum n u). field. lra.
      - intros i Hi. unfold precision. pose proof (e_nz i Hi). field. auto. }
    assert (N1 : bsum n (fun i => u i * off rows xs i * (ys i - w)) = best_slope * scatter rows xs).
    { rewrite (bsum_ext n _ (fun i => u i * off rows xs i * ys i - w * (u i * off rows xs i))) by (intros; ring).
      rewrite bsum_minus, bsum_scal, sum_off. unfold best_slope. rewrite <- bsum_scal_r.
      rewrite (bsum_ext n (fun i => slope_coefficient rows xs i * ys i * scatter rows xs) (fun i => u i * off rows xs i * ys i)); [ring|].
      intros i Hi. unfold slope_coefficient. field. auto. }
    assert (G : forall m s, bsum n (fun i => u i * (ys i - m - s * off rows xs i) ^ 2)
       = bsum n (fun i => u i * (ys i - w) ^ 2) + (m - w) ^ 2 * bsum n u + s ^ 2 * scatter rows xs
         - 2 * (m - w) * 0 - 2 * s * (best_slope * scatter rows xs) + 2 * s * (m - w) * 0).
    { intros m' s'. rewrite <- N1. rewrite <- sum_off at 2. rewrite <- N0 at 1. unfold scatter.
      rewrite <- !bsum_scal, <- !bsum_plus, <- !bsum_minus, <- !bsum_plus. apply bsum_ext. intros i Hi. ring. }
    rewrite (G m s), (G w best_slope). ring.
  Qed.
  Lemma best_line_slope a s : 0 < scatter rows xs -> best_line rows xs a s -> s = best_slope.
  Proof.
    intros NZ B. set (a' := weighted_mean rows - best_slope * (centre rows xs - nth 0 xs 0)).
    destruct (B a' best_slope) as [L E].
    rewrite !line_ss_off in L, E.
    replace (a' + best_slope * (centre rows xs - nth 0 xs 0)) with (weighted_mean rows) in L, E by (unfold a'; ring).
    rewrite (best_decomposition (a + s * (centre rows xs - nth 0 xs 0)) s) in L, E by lra.
    pose proof U_pos' as P.
    assert (Q : 0 <= (a + s * (centre rows xs - nth 0 xs 0) - weighted_mean rows) ^ 2 * bsum n u) by (apply Rmult_le_pos; [apply pow2_ge_0|lra]).
    assert (Q2 : 0 <= (s - best_slope) ^ 2 * scatter rows xs) by (apply Rmult_le_pos; [apply pow2_ge_0|lra]).
    destruct (E ltac:(lra)) as [_ ->]. reflexivity.
  Qed.
  Lemma scatter_nonneg : 0 <= scatter rows xs.
  Proof. apply bsum_nonneg. intros i Hi. apply Rmult_le_pos; [left; now apply u_pos'|apply pow2_ge_0]. Qed.
End Standard.
