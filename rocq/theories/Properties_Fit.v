(* Properties C36-C44, C75-C80: the fits of pyowc/core/stats.py *)
From Coq Require Import String ZArith List Bool Reals Lra Lia Permutation Sorted.
From Verif Require Import Num Np Finders Stats FitCond Spec_Utilities Spec_Finders Spec_Stats Spec_FitCond LinR LeastSq
  Proofs_Fit Proofs_Curve Proofs_FC1 Proofs_FC2 Proofs_FC7 Proofs_FC9 Proofs_FC10 Proofs_FC11 Proofs_FC12 Proofs_Witness.
Import ListNotations.
Local Open Scope R_scope.
Local Open Scope list_scope.

(* ---- C36 ---- *)
Theorem C36_least_squares : forall det solve, det_ok det -> solve_ok solve ->
  forall (x0 : R) xr ys breaks w,
  let xs := x0 :: xr in let b := x0 :: breaks in let m := (length breaks + 2)%nat in
  length xs = length ys -> ascending xs -> ascending b -> weights_ok (length xs) w -> determined b xs w ->
  exists beta, brk_pt_fit det solve (map Fin xs) (map Fin ys) (fweights w) (map Fin breaks)
      = Ok (CVec (map Fin beta), map Fin (residuals b xs ys beta)) /\ length beta = m /\
    forall beta', length beta' = m ->
      weighted_ss w (residuals b xs ys beta) <= weighted_ss w (residuals b xs ys beta') /\
      (weighted_ss w (residuals b xs ys beta') = weighted_ss w (residuals b xs ys beta) -> beta' = beta).
Proof. exact fit_optimum. Qed.
Print Assumptions C36_least_squares.
Example C36_witness : det_ok exact_det /\ solve_ok exact_solve /\ determined [0; 1] [0; 1; 2] None.
Proof. exact (conj exact_det_ok (conj exact_solve_ok determined_example)). Qed.

(* ---- C37 ---- *)
Theorem C37_piecewise_linear : forall b beta, ascending b -> piecewise_linear b (curve b beta) (fun k => nth (S k) beta 0).
Proof. exact curve_piecewise. Qed.
Print Assumptions C37_piecewise_linear.
Theorem C37_continuous : forall b beta, continuity (curve b beta).
Proof. exact curve_continuous. Qed.
Print Assumptions C37_continuous.
Theorem C37_start : forall b beta, ascending b -> b <> [] -> curve b beta (nth 0 b 0) = nth 0 beta 0.
Proof. exact curve_start. Qed.
Print Assumptions C37_start.
Theorem C37_every_curve : forall b f slope, ascending b -> b <> [] -> piecewise_linear b f slope ->
  let beta := f (nth 0 b 0) :: map slope (seq 0 (length b)) in
  forall x, nth 0 b 0 <= x -> f x = curve b beta x.
Proof. exact curve_represents. Qed.
Print Assumptions C37_every_curve.
Theorem C37_exact_data : forall det solve, det_ok det -> solve_ok solve ->
  forall (x0 : R) xr ys breaks w,
  let xs := x0 :: xr in let b := x0 :: breaks in
  length xs = length ys -> ascending xs -> ascending b ->
  forall beta, determined b xs w -> length beta = (length breaks + 2)%nat ->
  (forall i, (i < length xs)%nat -> nth i ys 0 = curve b beta (nth i xs 0)) ->
  brk_pt_fit det solve (map Fin xs) (map Fin ys) (fweights w) (map Fin breaks)
  = Ok (CVec (map Fin beta), map Fin (repeat 0 (length xs))).
Proof. exact fit_exact. Qed.
Print Assumptions C37_exact_data.
(* 5 at position 0, slope 2 up to the break at 1, slope -1 after it *)
Example C37_witness : ascending [0; 1; 2] /\ ascending [0; 1] /\ determined [0; 1] [0; 1; 2] None /\
  forall i, (i < 3)%nat -> nth i [5; 7; 6] 0 = curve [0; 1] [5; 2; -1] (nth i [0; 1; 2] 0).
Proof. exact exact_case. Qed.

(* ---- C38 ---- *)
Theorem C38_mismatch : forall det solve (x_obvs y_obvs : list XR) w breaks, length x_obvs <> length y_obvs ->
  brk_pt_fit det solve x_obvs y_obvs w breaks = Ok (CZeroCol (length breaks + 2), y_obvs).
Proof. exact fit_mismatch. Qed.
Print Assumptions C38_mismatch.
Theorem C38_singular : forall det solve, det_ok det ->
  forall (x0 : R) xr ys breaks w,
  let xs := x0 :: xr in let b := x0 :: breaks in
  length xs = length ys -> ascending xs -> ascending b -> ~ determined b xs w ->
  brk_pt_fit det solve (map Fin xs) (map Fin ys) (fweights w) (map Fin breaks)
  = Ok (CZeroCol (length breaks + 2), map Fin ys).
Proof. exact fit_singular. Qed.
Print Assumptions C38_singular.
(* no sample after the break *)
Example C38_witness : ascending [0; 1; 2] /\ ascending [0; 5] /\ ~ determined [0; 5] [0; 1; 2] None.
Proof. exact singular_case. Qed.

(* ---- C39 ---- *)
Theorem C39_ordered : forall xb0 xb1 u, u <> [] -> xb0 < xb1 ->
  exists bs, decode_breaks (Fin xb0, Fin xb1) (map Fin u) = Ok (map Fin bs)
    /\ length bs = length u /\ ordered_inside xb0 xb1 bs.
Proof. exact decode_ordered. Qed.
Print Assumptions C39_ordered.
Theorem C39_onto : forall xb0 xb1 bs, bs <> [] -> xb0 < xb1 -> ordered_inside xb0 xb1 bs ->
  exists u, length u = length bs /\ decode_breaks (Fin xb0, Fin xb1) (map Fin u) = Ok (map Fin bs).
Proof. exact decode_onto. Qed.
Print Assumptions C39_onto.
Theorem C39_round_trip : forall xb0 xb1 g, g <> [] -> xb0 < xb1 -> ordered_inside (-1) 1 g ->
  exists u, encode_breaks (map Fin g) = map Fin u /\ length u = length g /\
    decode_breaks (Fin xb0, Fin xb1) (map Fin u)
    = Ok (map Fin (map (fun b => xb0 + (xb1 - xb0) * ((b + 1) / 2)) g)).
Proof. exact encode_decode. Qed.
Print Assumptions C39_round_trip.
Example C39_witness : ordered_inside (-1) 1 [-1 / 2; 1 / 2].
Proof. split; [repeat constructor; lra|]. intros x [<-|[<-|[]]]; lra. Qed.

(* ---- C40 ---- *)
Theorem C40_range : forall n K k, (0 < n)%nat -> finmat n n K k -> correlation_matrix n k ->
  exists v, eff_dof n K = Fin v /\ 1 <= v <= INR n.
Proof. exact eff_dof_range. Qed.
Print Assumptions C40_range.
Theorem C40_independent : forall n K, finmat n n K delta -> eff_dof n K = Fin (INR n).
Proof. exact eff_dof_independent. Qed.
Print Assumptions C40_independent.
Theorem C40_correlated : forall n K, (0 < n)%nat -> finmat n n K (fun _ _ => 1) -> eff_dof n K = Fin 1.
Proof. exact eff_dof_correlated. Qed.
Print Assumptions C40_correlated.
Example C40_witness : correlation_matrix 2 (fun i j => if Nat.eqb i j then 1 else 1 / 2).
Proof. split; [intros i Hi; rewrite Nat.eqb_refl; reflexivity|]. intros i j Hi Hj. destruct (Nat.eqb i j); lra. Qed.
(* the number reported with a fit is that of the covariances between the valid samples *)
Theorem C40_reported : forall T (HN : Num T) (HT : NumT T) det solve inv least_squares rng randn x y e lv args (g : rng) f g',
  fit_cond det solve inv least_squares rng randn x y e lv args g = (Ok (Fitted f), g') ->
  let pos := good_points x y in
  f_ndf f = eff_dof (length pos) (fun i j => lv (nth i pos 0%nat) (nth j pos 0%nat)).
Proof. exact (fun T HN HT => fit_ndf (T := T)). Qed.
Print Assumptions C40_reported.

(* ---- C41 ---- *)
Theorem C41_missing_value : forall T (HN : Num T) (HT : NumT T) det solve inv least_squares rng randn x y e lv args (g : rng),
  good_points x y <> [] -> Nat.odd (length args) = true ->
  fit_cond det solve inv least_squares rng randn x y e lv args g = (Raise ValueError, g).
Proof. exact (fun T HN HT => args_odd (T := T)). Qed.
Print Assumptions C41_missing_value.
Theorem C41_unknown_option : forall T (HN : Num T) (HT : NumT T) det solve inv least_squares rng randn x y e lv ps a v rest (g : rng),
  good_points x y <> [] -> Nat.odd (length rest) = false -> Forall well_formed ps -> ~ known a ->
  fit_cond det solve inv least_squares rng randn x y e lv (flat ps ++ a :: v :: rest) g = (Raise ValueError, g).
Proof. exact (fun T HN HT => args_bad (T := T)). Qed.
Print Assumptions C41_unknown_option.
Theorem C41_no_maximum : forall T (HN : Num T) (HT : NumT T) det solve inv least_squares rng randn x y e lv ps (g : rng),
  good_points x y <> [] -> Forall well_formed ps -> (forall q, In q ps -> ~ sets_max q) ->
  fit_cond det solve inv least_squares rng randn x y e lv (flat ps) g = (Raise TypeError, g).
Proof. exact (fun T HN HT => args_no_max (T := T)). Qed.
Print Assumptions C41_no_maximum.
Example C41_witness : good_points (map Fin [0; 1]) [NaN; Fin 2] = [1%nat] /\
  run (map Fin [0; 1]) [NaN; Fin 2] [NaN; Fin 1] independent [] tt = (Raise TypeError, tt) /\
  run (map Fin [0; 1]) [NaN; Fin 2] [NaN; Fin 1] independent [VStr "max_no_breaks"] tt = (Raise ValueError, tt).
Proof. split; [|split]; reflexivity. Qed.

(* ---- C42 ---- *)
Theorem C42_candidates : forall (p : @prep XR) o mx v, ndf p = Fin v -> o_set o = false -> (-1 <= mx)%Z ->
  exists K, most_breaks v mx K /\ candidates p o (-1) mx = (zrange (-1) (K + 1), (-1)%Z, mx).
Proof. exact candidates_plain. Qed.
Print Assumptions C42_candidates.
Theorem C42_denominators : forall v mx K k, most_breaks v mx K -> (-1 <= k <= K)%Z -> K <> (-1)%Z ->
  1 <= v - IZR (2 * (k + 1)) - 2.
Proof. exact candidate_denominators. Qed.
Print Assumptions C42_denominators.
Theorem C42_least : forall (o : @opts XR) d pbrk mx t best, o_set o = false ->
  choose o d pbrk (-1) mx t = Ok best -> (forall k, In k pbrk -> (-1 <= k)%Z) ->
  (forall k, In k pbrk -> nisnan (aic t (Z.to_nat (k + 1))) = false) ->
  exists k, In k pbrk /\ best = Z.to_nat (k + 2) /\
    forall k', In k' pbrk -> nltb (aic t (Z.to_nat (k' + 1))) (aic t (Z.to_nat (k + 1))) = false.
Proof. exact choose_least. Qed.
Print Assumptions C42_least.
Example C42_witness : most_breaks 8 4 1.
Proof.
  split; [lia|]. split; [right; rewrite ?plus_IZR, ?mult_IZR; lra|]. intros k Hk Hv. rewrite plus_IZR, mult_IZR in Hv.
  assert (k < 2)%Z; [|lia]. apply lt_IZR. lra.
Qed.

(* ---- C43 ---- *)
Theorem C43_station_means : forall rows lv xs us vs,
  usable rows -> sorted_positions rows xs -> distinct_of (map fst rows) us -> distinct_of xs vs ->
  forall det solve inv least_squares rng randn args (g : rng) f g',
  fit_cond det solve inv least_squares rng randn (col_x rows) (col_y rows) (col_e rows) lv args g = (Ok (Fitted f), g') ->
  f_xfit f = map Fin us /\
  f_sta_mean f = at_positions xs us (fun u => station_mean rows (window xs u)) /\
  f_sta_rms f = at_positions xs us (fun u => station_rms rows (window xs u)).
Proof. exact station_values. Qed.
Print Assumptions C43_station_means.
Theorem C43_one_sample : forall xs u, ascending xs -> NoDup xs -> In u xs -> window xs u = own_samples xs u.
Proof. exact window_single. Qed.
Print Assumptions C43_one_sample.
Example C43_witness : usable rowsA /\ sorted_positions rowsA xsA /\ distinct_of (map fst rowsA) usA /\ distinct_of xsA usA /\
  exists f, run (col_x rowsA) (col_y rowsA) (col_e rowsA) independent (upto (-1)) tt = (Ok (Fitted f), tt).
Proof.
  destruct fitA as (f & E & _). exact (conj usableA (conj sortedA (conj distinctA (conj distinctA' (ex_intro _ f E))))).
Qed.
(* the first of two profiles has the values 1 and 3; its reported mean is 1 *)
Theorem C43_own_mean_refuted : exists f,
  run (col_x rowsA) (col_y rowsA) (col_e rowsA) independent (upto (-1)) tt = (Ok (Fitted f), tt) /\
  nth 0 (f_sta_mean f) NaN = Fin 1 /\ station_mean rowsA (own_samples xsA 0) = 2.
Proof. exact station_refuted. Qed.
Print Assumptions C43_own_mean_refuted.

(* ---- C44 ---- *)
(* rearranging the positions among the samples, without their values, changes nothing *)
Theorem C44_positions_sorted : forall rows rows' lv, map snd rows = map snd rows' ->
  Permutation (map fst (valid rows)) (map fst (valid rows')) ->
  (forall x, In x (map fst rows) <-> In x (map fst rows')) ->
  forall det solve inv least_squares rng randn args (g : rng),
  fit_cond det solve inv least_squares rng randn (col_x rows) (col_y rows) (col_e rows) lv args g
  = fit_cond det solve inv least_squares rng randn (col_x rows') (col_y rows') (col_e rows') lv args g.
Proof. exact fit_same. Qed.
Print Assumptions C44_positions_sorted.
Example C44_witness : map snd rowsD = map snd rowsD' /\ Permutation (map fst (valid rowsD)) (map fst (valid rowsD')) /\
  (forall x, In x (map fst rowsD) <-> In x (map fst rowsD')) /\ rowsD <> rowsD'.
Proof. exact swapped_positions. Qed.
(* listing the same two samples in the other order exchanges their means *)
Theorem C44_order_refuted : exists f f', Permutation rowsB rowsB' /\
  run (col_x rowsB) (col_y rowsB) (col_e rowsB) independent (upto (-1)) tt = (Ok (Fitted f), tt) /\
  run (col_x rowsB') (col_y rowsB') (col_e rowsB') independent (upto (-1)) tt = (Ok (Fitted f'), tt) /\
  f_sta_mean f = [Fin 1; Fin 2] /\ f_sta_mean f' = [Fin 2; Fin 1].
Proof. exact order_refuted. Qed.
Print Assumptions C44_order_refuted.

(* ---- C75 ---- *)
Theorem C75_no_break_fit : forall T (HN : Num T) (HT : NumT T) det solve inv least_squares rng randn x y e lv ps (g : rng) f g',
  Forall well_formed ps -> free_breaks ps ->
  fit_cond det solve inv least_squares rng randn x y e lv (flat ps) g = (Ok (Fitted f), g') ->
  f_breaks f = [] /\ (length (f_coef f) <= 2)%nat.
Proof. exact (fun T HN HT => fit_without_breaks (T := T)). Qed.
Print Assumptions C75_no_break_fit.
Example C75_witness : @free_breaks XR [(VStr "Max_No_Breaks"%string, VInt 0)] /\
  Forall well_formed [(VStr "Max_No_Breaks"%string, @VInt XR 0)] /\
  exists f, run (col_x rowsC) (col_y rowsC) (col_e rowsC) independent (flat [(VStr "Max_No_Breaks"%string, VInt 0)]) tt = (Ok (Fitted f), tt).
Proof.
  split; [|split].
  - intros q [<-|[]]. split; intros (s & H & H2); cbn in H; inversion H; subst; discriminate H2.
  - constructor; [|constructor]. exists "max_no_breaks"%string. split; [cbn; tauto|]. split; [exact upto_named|].
    repeat split; discriminate.
  - destruct shift_refuted as (f & E & _). exists f. exact E.
Qed.

(* ---- C76 ---- *)
Theorem C76_initial_breaks_unused : forall T (HN : Num T) (HT : NumT T) det solve inv least_squares rng randn x y e lv ps (g : rng) out g',
  fit_cond det solve inv least_squares rng randn x y e lv (flat ps) g = (Ok out, g') ->
  fit_cond det solve inv least_squares rng randn x y e lv (flat (filter not_init ps)) g = (Ok out, g').
Proof. exact (fun T HN HT => initial_breaks_unused (T := T)). Qed.
Print Assumptions C76_initial_breaks_unused.
Example C76_witness : flat (filter not_init with_initial) = upto (-1) /\ exists f,
  run (col_x rowsA) (col_y rowsA) (col_e rowsA) independent (flat with_initial) tt = (Ok (Fitted f), tt).
Proof. exact (conj without_initial initial_case). Qed.

(* ---- C77 ---- *)
Theorem C77_constant_fit : forall det solve inv least_squares rng randn rows lv us v a mx (g : rng),
  inv_ok inv -> usable rows -> distinct_of (map fst rows) us -> effective_number rows lv v ->
  named "max_no_breaks"%string a -> (-1 <= mx)%Z -> mx = (-1)%Z \/ v < 5 ->
  exists f, fit_cond det solve inv least_squares rng randn (col_x rows) (col_y rows) (col_e rows) lv [a; VInt mx] g
      = (Ok (Fitted f), g) /\ offset_result rows us v f.
Proof. exact choice_constant. Qed.
Print Assumptions C77_constant_fit.
Example C77_witness : inv_ok exact_inv /\ usable rowsA /\ distinct_of (map fst rowsA) usA /\ effective_number rowsA independent 3.
Proof.
  split; [exact exact_inv_ok|]. split; [exact usableA|]. split; [exact distinctA|].
  replace 3 with (INR (length (valid rowsA))) by (cbn; lra). apply effective_independent.
Qed.

(* ---- C78 ---- *)
Theorem C78_line_or_constant : forall det solve inv least_squares rng randn rows lv xs us v a mx,
  det_ok det -> solve_ok solve -> inv_ok inv -> randn_ok randn ->
  usable rows -> sorted_positions rows xs -> distinct_of (map fst rows) us -> effective_number rows lv v ->
  named "max_no_breaks"%string a -> (0 <= mx)%Z -> 5 <= v -> spread rows ->
  let here := fit_cond det solve inv least_squares rng randn (col_x rows) (col_y rows) (col_e rows) lv [a; VInt mx] in
  exists c s, best_line rows xs c s /\
  let r0 := flat_ss rows (weighted_mean rows) in let r1 := line_ss rows xs c s in
  (forall g f g', here g = (Ok (Fitted f), g') ->
     prefers_line (length (valid rows)) v r0 r1 /\ line_result rows xs us v c s f \/
     ~ prefers_line (length (valid rows)) v r0 r1 /\ offset_result rows us v f) /\
  (mx = 0%Z \/ v < 7 -> forall g, exists f g', here g = (Ok (Fitted f), g')).
Proof. exact choice_line. Qed.
Print Assumptions C78_line_or_constant.
Theorem C78_one_position : forall det solve inv least_squares rng randn rows lv v a mx (g : rng),
  det_ok det -> inv_ok inv -> usable rows -> effective_number rows lv v ->
  named "max_no_breaks"%string a -> (0 <= mx)%Z -> 5 <= v -> ~ spread rows ->
  fit_cond det solve inv least_squares rng randn (col_x rows) (col_y rows) (col_e rows) lv [a; VInt mx] g = (Raise ValueError, g).
Proof. exact choice_no_line. Qed.
Print Assumptions C78_one_position.
Example C78_witness : spread rowsC /\ usable rowsC /\ sorted_positions rowsC [1; 2; 3; 4; 5] /\
  distinct_of (map fst rowsC) [0; 1; 2; 3; 4; 5] /\ effective_number rowsC independent 5 /\ randn_ok no_noise.
Proof.
  split; [|split; [|split; [|split; [|split]]]].
  - exists 1, 2. cbn. repeat split; try lra; tauto.
  - split; [discriminate|]. cbn. intros e. intuition lra.
  - split; [|reflexivity]. apply Proofs_Utilities.ascending_sorted. repeat constructor; lra.
  - split; [repeat constructor; lra|]. cbn. tauto.
  - replace 5 with (INR (length (valid rowsC))) by (cbn; lra). apply effective_independent.
  - exact no_noise_ok.
Qed.

(* ---- C79 ---- *)
(* the values 1..5 at 1..5 lie on a line; with an empty profile at 0 the returned curve misses them all *)
Theorem C79_shifted_line_refuted : exists f,
  run (col_x rowsC) (col_y rowsC) (col_e rowsC) independent (upto 0) tt = (Ok (Fitted f), tt) /\
  best_line rowsC [1; 2; 3; 4; 5] 1 1 /\ line_ss rowsC [1; 2; 3; 4; 5] 1 1 = 0 /\
  f_condslope f = map Fin [1; 2; 3; 4; 5; 6].
Proof. exact shift_refuted. Qed.
Print Assumptions C79_shifted_line_refuted.

(* ---- C80 ---- *)
Theorem C80_no_data : forall T (HN : Num T) (HT : NumT T) det solve inv least_squares rng randn x y e lv args (g : rng),
  good_points x y = [] ->
  fit_cond det solve inv least_squares rng randn x y e lv args g = (Ok (NoData (np_unique x)), g).
Proof. exact (fun T HN HT => no_data (T := T)). Qed.
Print Assumptions C80_no_data.
Example C80_witness : good_points (T := XR) [Fin 0; NaN] [NaN; Fin 35] = [].
Proof. exact no_points. Qed.
