(* The error of a line: the call, and worked cases *)
From Coq Require Import String ZArith List Bool Reals Lra Lia Sorted Permutation.
From Verif Require Import Num Np NumFacts NpFacts Utilities Finders Stats FitCond Spec_Utilities Spec_Finders Spec_Stats
  Spec_FitCond LinR LeastSq Proofs_Utilities Proofs_Stats1 Proofs_Fit Proofs_Curve Proofs_FC1 Proofs_FC2 Proofs_FC3 Proofs_FC4 Proofs_FC5
  Proofs_FC6 Proofs_FC7 Proofs_FC8 Proofs_FC9 Proofs_FC10 Proofs_FC11 Spec_FitErr Proofs_FC13 Proofs_FC14 Proofs_FC15 Spec_LineErr
  Proofs_LineErr Proofs_LineErr2 Proofs_LineErr3.
Import ListNotations.
Local Open Scope R_scope.
Local Open Scope list_scope.

Lemma call_line_error det solve inv least_squares rng randn rows lv xs us c ps (g : rng) f g' zs gz a s :
  det_ok det -> solve_ok solve -> inv_ok inv -> usable rows -> sorted_positions rows xs -> distinct_of (map fst rows) us ->
  correlations rows lv c -> spread rows -> (forall w, In w us -> 0 <= inflation rows xs us c w) ->
  fit_cond det solve inv least_squares rng randn (col_x rows) (col_y rows) (col_e rows) lv (flat ps) g = (Ok (Fitted f), g') ->
  f_coef f = [Fin a; Fin s] -> best_line rows xs a s ->
  draws ps = VInt (Z.of_nat (length zs)) -> zs <> [] -> drawn randn (length (valid rows)) zs g gz ->
  f_condslope_err f = map (fun w => Fin (line_error rows xs us c zs w)) us /\ g' = gz.
Proof.
  intros Hd Hso Hi Hu Hxs Hus Hc Hs HI E FC BL HN Nz D.
  destruct (xs_cons rows xs Hu Hxs) as (x1 & xr & Ex). rewrite Ex in *. destruct (distinct_exists (x1 :: xr)) as (vs & Hvs).
  apply fit_options in E as (o & nbr1 & t & best & B & Ho & E). pose proof (evaluate_coefs _ _ _ _ _ _ _ _ _ _ _ _ _ _ B E) as Lb.
  rewrite FC in Lb. cbn [length] in Lb. subst best. apply (spread_several rows x1 xr Hxs) in Hs.
  eapply line_error_of; eauto. now rewrite Ho.
Qed.

Lemma line_combination rows xs a s w : usable rows -> sorted_positions rows xs -> spread rows -> best_line rows xs a s ->
  a + s * (w - hd 0 xs) = bsum (length (valid rows)) (fun i => line_coefficient rows xs w i * nth i (values rows) 0).
Proof.
  intros Hu Hxs Hs B. pose proof (scatter_pos rows xs Hu Hxs Hs) as SP. destruct (best_line_values rows xs Hu SP a s B) as [E1 E2].
  rewrite E1, E2, !lc_at. assert (nth 0 xs 0 = hd 0 xs) as -> by (destruct xs; reflexivity). ring.
Qed.

Lemma inflation_independent rows xs us c w : usable rows -> sorted_positions rows xs -> spread rows -> hd 0 us <= w ->
  (forall i j, (i < length (valid rows))%nat -> (j < length (valid rows))%nat -> c i j = delta i j) -> inflation rows xs us c w = 1.
Proof.
  intros Hu Hxs Hs Hw Hc. pose proof (scatter_pos rows xs Hu Hxs Hs) as SP.
  assert (G : forall a, pairs_of rows c a = pairs_of rows delta a).
  { intros a. apply bsum2_ext. intros i j Hi Hj. now rewrite Hc. }
  assert (E : correlated rows xs us c w = correlated rows xs us delta w) by (unfold correlated; now rewrite !G).
  unfold inflation. rewrite E. assert (P : 0 < correlated rows xs us delta w); [|field; lra].
  destruct (xs_cons rows xs Hu Hxs) as (x1 & xr & Ex). rewrite Ex in *. apply correlated_pos; auto.
  change (half_range (x1 :: xr)) with (xscR (x1 :: xr)). exact (xsc_pos rows x1 xr Hu Hxs).
Qed.
Lemma error_independent rows xs us c zs w : usable rows -> sorted_positions rows xs -> spread rows -> hd 0 us <= w ->
  (forall i j, (i < length (valid rows))%nat -> (j < length (valid rows))%nat -> c i j = delta i j) ->
  line_error rows xs us c zs w = sqrt (fold_right Rplus 0 (map (fun z => deviation rows xs us z w ^ 2) zs) / INR (length zs)).
Proof. intros Hu Hxs Hs Hw Hc. unfold line_error. rewrite (inflation_independent rows xs us c w) by auto. now rewrite Rmult_1_r. Qed.

(* ---- two samples with unit errors and correlation 1/2 ---- *)
Definition rowsE : list row := [(0, Some (1, 1)); (1, Some (2, 1))].
Lemma half_rangeE : half_range [0; 1] = 1 / 2.
Proof. unfold half_range. cbn [hd last]. destruct (Req_EM_T 0 1); lra. Qed.
Lemma factorE : inflation rowsE [0; 1] [0; 1] halfcorr 1 = 3 / 4 /\
  variance_of rowsE halfcorr (line_coefficient rowsE [0; 1] 1) = 1 /\ variance_of rowsE delta (line_coefficient rowsE [0; 1] 1) = 1.
Proof.
  assert (U0 : bsum 2 (precision rowsE) = 2) by (unfold bsum, precision, rowsE; cbn; field).
  assert (C0 : centre rowsE [0; 1] = 1 / 2) by (unfold centre; cbn [length valid rowsE]; fold rowsE; rewrite U0; unfold bsum, precision, rowsE; cbn; field).
  assert (Sc : scatter rowsE [0; 1] = 1 / 2) by (unfold scatter, off; rewrite C0; unfold bsum, precision, rowsE; cbn; field).
  assert (S0 : slope_coefficient rowsE [0; 1] 0 = -1) by (unfold slope_coefficient, off; rewrite C0, Sc; unfold precision, rowsE; cbn; field).
  assert (S1 : slope_coefficient rowsE [0; 1] 1 = 1) by (unfold slope_coefficient, off; rewrite C0, Sc; unfold precision, rowsE; cbn; field).
  assert (M0 : mean_coefficient rowsE 0 = 1 / 2) by (unfold mean_coefficient; cbn [length valid rowsE]; fold rowsE; rewrite U0; unfold precision, rowsE; cbn; field).
  assert (M1 : mean_coefficient rowsE 1 = 1 / 2) by (unfold mean_coefficient; cbn [length valid rowsE]; fold rowsE; rewrite U0; unfold precision, rowsE; cbn; field).
  assert (L0 : forall w, line_coefficient rowsE [0; 1] w 0 = 1 - w) by (intros w; unfold line_coefficient; rewrite M0, S0, C0; field).
  assert (L1 : forall w, line_coefficient rowsE [0; 1] w 1 = w) by (intros w; unfold line_coefficient; rewrite M1, S1, C0; field).
  assert (P0 : precision rowsE 0 = 1) by (unfold precision, rowsE; cbn; field). assert (P1 : precision rowsE 1 = 1) by (unfold precision, rowsE; cbn; field).
  assert (PO : forall c a, pairs_of rowsE c a = a 0%nat * c 0%nat 0%nat * a 0%nat + a 0%nat * c 0%nat 1%nat * a 1%nat + a 1%nat * c 1%nat 0%nat * a 0%nat + a 1%nat * c 1%nat 1%nat * a 1%nat).
  { intros c a. unfold pairs_of. change (length (valid rowsE)) with 2%nat. rewrite !bsum_S, !bsum_0, P0, P1. field. }
  assert (VO : forall c a, variance_of rowsE c a = a 0%nat * c 0%nat 0%nat * a 0%nat + a 0%nat * c 0%nat 1%nat * a 1%nat + a 1%nat * c 1%nat 0%nat * a 0%nat + a 1%nat * c 1%nat 1%nat * a 1%nat).
  { intros c a. unfold variance_of. change (length (valid rowsE)) with 2%nat. rewrite !bsum_S, !bsum_0. cbn [nth errors map valid rowsE snd fst]. ring. }
  split.
  - unfold inflation, correlated. rewrite half_rangeE, !PO, !L0, !L1, S0, S1. cbn [hd]. unfold halfcorr, delta. cbn [Nat.eqb]. field.
  - rewrite !VO, !L0, !L1. unfold halfcorr, delta. cbn [Nat.eqb]. split; field.
Qed.

(* ---- five samples on a line, with the same number drawn each time ---- *)
Definition one_noise (n : nat) (g : unit) : list XR * unit := (repeat (Fin 1) n, g).
Lemma one_noise_ok : randn_ok one_noise. Proof. intros n g. apply repeat_length. Qed.
Lemma one_drawn n k : drawn one_noise n (repeat (repeat 1 n) k) tt tt.
Proof.
  induction k as [|k IH]; cbn [repeat drawn]; auto. exists tt. split; [|split; [apply repeat_length|exact IH]].
  unfold one_noise. f_equal. clear. induction n; cbn; congruence.
Qed.
Definition only_max : list (pyval XR * pyval XR) := [(VStr "Max_No_Breaks", VInt 0)].
Lemma one_fit : exists f a s, fit_cond exact_det exact_solve exact_inv no_optimum unit one_noise (col_x rowsC) (col_y rowsC) (col_e rowsC) independent (flat only_max) tt = (Ok (Fitted f), tt) /\
  f_coef f = [Fin a; Fin s] /\ best_line rowsC [1; 2; 3; 4; 5] a s.
Proof.
  assert (D : distinct_of (map fst rowsC) [0; 1; 2; 3; 4; 5]) by (split; [repeat constructor; lra|]; cbn; tauto).
  assert (Ev : effective_number rowsC independent 5).
  { replace 5 with (INR (length (valid rowsC))) by (cbn; lra). apply effective_independent. }
  destruct (choice_line exact_det exact_solve exact_inv no_optimum unit one_noise rowsC independent [1; 2; 3; 4; 5] [0; 1; 2; 3; 4; 5] 5 (VStr "Max_No_Breaks") 0)
    as (c & s & B & R1 & R2); auto using exact_det_ok, exact_solve_ok, exact_inv_ok, one_noise_ok, upto_named, usableC, sortedC, spreadC; try lia; try lra.
  destruct (R2 ltac:(auto) tt) as (f & g & E). destruct g. exists f, c, s. split; [exact E|]. split; auto.
  assert (Z : line_ss rowsC [1; 2; 3; 4; 5] 1 1 = 0) by (unfold line_ss, bsum, rowsC; cbn; field).
  assert (Z2 : 0 < flat_ss rowsC (weighted_mean rowsC)) by (unfold flat_ss, weighted_mean, bsum, rowsC; cbn; lra).
  destruct (R1 tt f tt E) as [[_ L]|[N _]].
  - destruct L as (_ & _ & _ & L & _). now rewrite L.
  - exfalso. apply N. split; auto. left. destruct (B 1 1) as [B1 _]. rewrite Z in B1.
    assert (P : 0 <= line_ss rowsC [1; 2; 3; 4; 5] c s) by apply line_ss_nonneg. lra.
Qed.
Lemma one_error w : 0 <= w -> line_error rowsC [1; 2; 3; 4; 5] [0; 1; 2; 3; 4; 5] delta (repeat (repeat 1 5) 200) w = 1.
Proof.
  intros Hw. rewrite error_independent by (auto using usableC, sortedC, spreadC; cbn [hd]; lra).
  assert (Dv : deviation rowsC [1; 2; 3; 4; 5] [0; 1; 2; 3; 4; 5] (repeat 1 5) w = 1).
  { unfold deviation. etransitivity; [|exact (lc_sum rowsC [1; 2; 3; 4; 5] usableC (curve_position [1; 2; 3; 4; 5] [0; 1; 2; 3; 4; 5] w))].
    apply bsum_ext. intros i Hi. change (length (valid rowsC)) with 5%nat in Hi.
    assert (E1 : nth i (errors rowsC) 0 = 1) by (destruct i as [|[|[|[|[|i]]]]]; try lia; reflexivity).
    assert (E2 : nth i (repeat 1 5) 0 = 1) by (destruct i as [|[|[|[|[|i]]]]]; try lia; reflexivity).
    rewrite E1, E2. ring. }
  rewrite repeat_length.
  assert (Sm : forall j, fold_right Rplus 0 (map (fun z => deviation rowsC [1; 2; 3; 4; 5] [0; 1; 2; 3; 4; 5] z w ^ 2) (repeat (repeat 1 5) j)) = INR j).
  { induction j as [|j IH]; [reflexivity|]. change (repeat (repeat 1 5) (S j)) with (repeat 1 5 :: repeat (repeat 1 5) j). cbn [map fold_right]. rewrite IH, Dv, S_INR. ring. }
  rewrite Sm. assert (0 < INR 200) by (apply lt_0_INR; lia). replace (INR 200 / INR 200) with 1 by (field; lra). apply sqrt_1.
Qed.
Lemma one_call : exists f, fit_cond exact_det exact_solve exact_inv no_optimum unit one_noise (col_x rowsC) (col_y rowsC) (col_e rowsC) independent (flat only_max) tt = (Ok (Fitted f), tt) /\
  f_condslope_err f = map (fun _ => Fin 1) [0; 1; 2; 3; 4; 5].
Proof.
  destruct one_fit as (f & a & s & E & FC & BL). exists f. split; [exact E|].
  assert (D : distinct_of (map fst rowsC) [0; 1; 2; 3; 4; 5]) by (split; [repeat constructor; lra|]; cbn; tauto).
  assert (P : forall w, In w [0; 1; 2; 3; 4; 5] -> 0 <= w) by (intros w Hw; cbn in Hw; intuition lra).
  destruct (call_line_error exact_det exact_solve exact_inv no_optimum unit one_noise rowsC independent [1; 2; 3; 4; 5] [0; 1; 2; 3; 4; 5] delta only_max
    tt f tt (repeat (repeat 1 5) 200) tt a s) as [H _];
    auto using exact_det_ok, exact_solve_ok, exact_inv_ok, usableC, sortedC, spreadC, correlations_independent; try discriminate.
  - intros w Hw. rewrite (inflation_independent rowsC [1; 2; 3; 4; 5] [0; 1; 2; 3; 4; 5] delta w) by (auto using usableC, sortedC, spreadC; cbn [hd]; auto). lra.
  - exact (one_drawn 5 200).
  - rewrite H. apply map_ext_in. intros w Hw. f_equal. apply one_error; auto.
Qed.
Lemma factor_not_ratio : exists rows xs us c w, usable rows /\ sorted_positions rows xs /\ spread rows /\
  inflation rows xs us c w = 3 / 4 /\
  variance_of rows c (line_coefficient rows xs (curve_position xs us w)) / variance_of rows delta (line_coefficient rows xs (curve_position xs us w)) = 1.
Proof.
  exists rowsE, [0; 1], [0; 1], halfcorr, 1. assert (U : usable rowsE) by (split; [discriminate|]; cbn; intros e; intuition lra).
  assert (S0 : sorted_positions rowsE [0; 1]) by (split; [intros i j [H1 H2]; cbn in H2; destruct i as [|[|i]], j as [|[|j]]; try lia; cbn; lra|apply Permutation_refl]).
  assert (S1 : spread rowsE). { exists 0, 1. cbn. auto. }
  destruct factorE as (F1 & F2 & F3). assert (CP : curve_position [0; 1] [0; 1] 1 = 1) by (unfold curve_position; cbn [hd]; ring).
  repeat (split; auto). rewrite CP, F2, F3. field.
Qed.
