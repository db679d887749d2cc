(* C149 *)
From Coq Require Import String Ascii.
From Coq Require Import ZArith List Bool Reals Lra Lia Sorted.
From Verif Require Import Num Np Utilities Finders Stats FitCond Topo Helper MapProfile Mapping Config Calib
  Spec_Utilities Spec_Finders Spec_Stats Spec_FitCond Spec_Calib Spec_Drift Spec_Input Proofs_Drift5 Proofs_Drift6 Proofs_Input.
Import ListNotations.
Local Open Scope R_scope.

(* what the fit of a series is given, when a calibration without break points completes and the numbers
   of the profiles of the series ascend: ten samples for each profile, at the levels chosen for that
   profile among the ten potential temperatures of the series, and the covariances of these places *)
Theorem C149_fit_input : forall det solve inv least_squares (rng : Type) (randn : nat -> rng -> list XR * rng) interp1d interp2d tbase c_from_sp sp_from_c
  cfg src pos d c flags nos v idx, c_from_sp NaN NaN (Fin 0) = NaN ->
  cf_breaks c = [] -> cf_calseries c = map Fin flags -> right_rows flags (cf_max_breaks c) -> src_no src = map Fin nos -> v <> 0 ->
  lists_series flags v idx -> idx <> [] -> StronglySorted Rlt (numbers_of nos idx) ->
  forall g r g', piecewisefit det solve inv least_squares rng randn interp1d interp2d tbase c_from_sp sp_from_c cfg src pos d (Ok c) g = (Ok r, g') ->
  exists l per m th ms tl tg pl pg x y e cov t f g1 g2,
    float_coords interp2d tbase pos = Ok l /\ cf_percent c = Some [[per]] /\
    one_bound (cf_theta_lt c) tl /\ one_bound (cf_theta_gt c) tg /\ one_bound (cf_pres_lt c) pl /\ one_bound (cf_pres_gt c) pg /\
    find_10thetas interp1d (src_levels src) (length idx) (columns (src_sal src) idx) (columns (src_ptmp src) idx) (columns (src_pres src) idx)
      (columns (m_cols (la_ptmp d)) idx) tl tg pl pg per = Ok (th, ms) /\
    (length x = 10 * length idx /\ length y = 10 * length idx /\ length e = 10 * length idx)%nat /\
    (forall p lv q, (p < length idx)%nat -> own_levels th p lv -> (q < 10)%nat ->
       let j := nth p idx 0%nat in let k := (10 * p + q)%nat in
       nth k x NaN = Fin (nth j nos 0) /\
       match nth_error lv q with
       | Some i => nth k y NaN = ratio c_from_sp src d j i /\ nth k e NaN = ratio_error c_from_sp src d j i /\ t q p = entry2 (src_ptmp src) j i
       | None => nth k y NaN = NaN /\ t q p = NaN
       end) /\
    build_cov 10 (length idx) t (map (fun j => nth j l (mkCoord NaN NaN NaN)) idx) cfg = Ok cov /\
    fit_cond det solve inv least_squares rng randn x y e cov [FitCond.VStr "max_no_breaks"; VFlt m] g1 = (Ok (Fitted f), g2) /\
    forall j, In j idx -> value_at f (Fin (nth j nos 0)) (entry1 (k_factor r) j).
Proof. exact series_input. Qed.
Print Assumptions C149_fit_input.
(* every profile has its levels *)
Theorem C149_levels : forall (th : @thetas XR) p, exists! lv, own_levels th p lv.
Proof. exact own_exists. Qed.
Print Assumptions C149_levels.
(* the levels of the two profiles of a series *)
Example C149_levels_witness : let th := mkThetas [] [] [[Some 7; None]; [None; Some 4]; [Some 2; Some 9]]%nat [] [] in
  own_levels th 0 [7; 2]%nat /\ own_levels th 1 [4; 9]%nat.
Proof. split; reflexivity. Qed.
(* six profiles with a drifting sensor meet the hypotheses and are calibrated *)
Example C149_witness : forall a b,
  cf_breaks (many_set 6 0) = [] /\ cf_calseries (many_set 6 0) = map Fin (repeat 1 6) /\ right_rows (repeat 1 6) (cf_max_breaks (many_set 6 0)) /\
  src_no (many_src 6) = map Fin (many_nos 6) /\ lists_series (repeat 1 6) 1 (seq 0 6) /\ StronglySorted Rlt (numbers_of (many_nos 6) (seq 0 6)) /\
  exists r, many_run 6 0 a b 0 = (Ok r, tt).
Proof.
  intros a b. assert (H : (0 + 2 <= 6 <= 90)%nat) by lia. split; [reflexivity|]. split; [reflexivity|]. split; [exact (many_rows 6 0 H 0)|]. split; [reflexivity|].
  split; [exact (many_series 6 0 H)|]. split; [exact (many_ascending 6 0 H)|]. exact (many_completes 6 0 H a b 0 (or_intror eq_refl)).
Qed.
