(* Recovery of a sensor drift, and completion of the calibration *)
From Coq Require Import String Ascii.
From Coq Require Import ZArith List Bool Reals Lra Lia Sorted.
From Verif Require Import Num Np Spec_Utilities Finders Stats FitCond Topo Helper MapProfile Mapping Config Calib
  Spec_Finders Spec_Stats Spec_FitCond Spec_Calib Spec_Depth Spec_Drift Proofs_Curve Proofs_FC11 Proofs_Depth4 Proofs_Drift3 Proofs_Drift4 Proofs_Drift5 Proofs_Drift6.
Import ListNotations.
Local Open Scope R_scope.

(* ---- C123 ---- *)
(* the same factor in every profile of a series *)
Theorem C123_offset : forall det solve inv least_squares (rng : Type) (randn : nat -> rng -> list XR * rng) interp1d interp2d tbase c_from_sp sp_from_c,
  det_ok det -> solve_ok solve -> inv_ok inv -> randn_ok randn -> c_from_sp NaN NaN (Fin 0) = NaN ->
  forall longs lats lat_scale long_scale phi pv, lat_scale <> 0 -> long_scale <> 0 -> (pv = true -> phi <> 0) -> depths_given interp2d tbase longs lats ->
  forall src d c flags nos v idx, temperatures src -> cf_breaks c = [] -> cf_calseries c = map Fin flags -> right_rows flags (cf_max_breaks c) ->
  src_no src = map Fin nos -> v <> 0 -> lists_series flags v idx ->
  forall k, follows c_from_sp src d nos idx (fun _ => k) ->
  forall g r g', piecewisefit det solve inv least_squares rng randn interp1d interp2d tbase c_from_sp sp_from_c
    (mkCovConfig (Fin long_scale) (Fin lat_scale) (Fin phi) pv) src (mkPositions [map Fin longs] [map Fin lats]) d (Ok c) g = (Ok r, g') ->
  forall j, In j idx -> entry1 (k_factor r) j = Fin k /\ entry1 (k_deriv r) j = Fin 0.
Proof. exact offset_recovered. Qed.
Print Assumptions C123_offset.
(* a factor that changes linearly with the number of the profile *)
Theorem C123_drift : forall det solve inv least_squares (rng : Type) (randn : nat -> rng -> list XR * rng) interp1d interp2d tbase c_from_sp sp_from_c,
  det_ok det -> solve_ok solve -> inv_ok inv -> randn_ok randn -> c_from_sp NaN NaN (Fin 0) = NaN ->
  forall longs lats lat_scale long_scale phi pv, lat_scale <> 0 -> long_scale <> 0 -> (pv = true -> phi <> 0) -> depths_given interp2d tbase longs lats ->
  forall src d c flags nos v idx mx, temperatures src -> cf_breaks c = [] -> cf_calseries c = map Fin flags -> right_rows flags (cf_max_breaks c) ->
  (forall row, In row (cf_max_breaks c) -> row = [Fin (IZR mx)]) ->
  src_no src = map Fin nos -> v <> 0 -> lists_series flags v idx -> idx <> [] -> StronglySorted Rlt (numbers_of nos idx) ->
  forall a b, follows c_from_sp src d nos idx (fun x => a + b * x) ->
  let cfg := mkCovConfig (Fin long_scale) (Fin lat_scale) (Fin phi) pv in
  let pos := mkPositions [map Fin longs] [map Fin lats] in
  forall g r g', piecewisefit det solve inv least_squares rng randn interp1d interp2d tbase c_from_sp sp_from_c cfg src pos d (Ok c) g = (Ok r, g') ->
  exists l per sd fi n x0, float_coords interp2d tbase pos = Ok l /\ cf_percent c = Some [[per]] /\
    select_series interp1d src (Some l) d c per idx = Ok sd /\ build_input c_from_sp cfg sd = Ok fi /\
    let rows := samples c_from_sp src d nos idx (sd_thetas sd) in
    effective_number rows (fi_cov fi) n /\ first_used c_from_sp src d nos idx (sd_thetas sd) x0 /\ (-1 <= mx)%Z /\
    ((0 <= mx)%Z /\ 5 <= n -> forall j, In j idx ->
       entry1 (k_factor r) j = Fin (a + b * (nth j nos 0 + (x0 - hd 0 (numbers_of nos idx)))) /\ entry1 (k_deriv r) j = Fin b) /\
    (mx = (-1)%Z \/ n < 5 -> forall j, In j idx ->
       entry1 (k_factor r) j = Fin (weighted_mean rows) /\ entry1 (k_deriv r) j = Fin 0).
Proof. exact drift_recovered. Qed.
Print Assumptions C123_drift.
(* the calibrated salinity of a profile whose factor is the ratio *)
Theorem C123_salinity : forall det solve inv least_squares (rng : Type) (randn : nat -> rng -> list XR * rng) interp1d interp2d tbase c_from_sp sp_from_c
  cfg src pos d c flags nos v idx, rectangular src -> cf_breaks c = [] -> cf_calseries c = map Fin flags -> right_rows flags (cf_max_breaks c) ->
  src_no src = map Fin nos -> v <> 0 -> lists_series flags v idx ->
  forall g r g', piecewisefit det solve inv least_squares rng randn interp1d interp2d tbase c_from_sp sp_from_c cfg src pos d (Ok c) g = (Ok r, g') ->
  forall j l y cs, In j idx -> (j < length nos)%nat -> (l < src_levels src)%nat -> let t := entry2 (src_ptmp src) j l in let s := entry2 (m_cols (la_mapped_sal d)) j l in
  ratio c_from_sp src d j l = Fin y -> entry1 (k_factor r) j = Fin y ->
  c_from_sp (entry2 (src_sal src) j l) t (Fin 0) = Fin cs -> cs <> 0 -> sp_from_c (c_from_sp s t (Fin 0)) t (Fin 0) = s ->
  entry2 (k_sal r) j l = s.
Proof. exact salinity_recovered. Qed.
Print Assumptions C123_salinity.

(* ---- C124 ---- *)
(* without fixed breakpoints and with at most a line to fit, the calibration completes *)
Theorem C124_completes : forall det solve inv least_squares (rng : Type) (randn : nat -> rng -> list XR * rng) interp1d interp2d tbase c_from_sp sp_from_c,
  det_ok det -> solve_ok solve -> inv_ok inv -> randn_ok randn -> c_from_sp NaN NaN (Fin 0) = NaN -> (forall xs ys x, exists v, interp1d xs ys x = Ok v) ->
  forall longs lats lat_scale long_scale phi pv l, lat_scale <> 0 -> long_scale <> 0 -> (pv = true -> phi <> 0) -> depths_given interp2d tbase longs lats ->
  let pos := mkPositions [map Fin longs] [map Fin lats] in
  float_coords interp2d tbase pos = Ok l ->
  forall src d c nos flags sal tmp pre la tlt tgt plt pgt pct mx, rectangular src -> src_no src = map Fin nos ->
  (forall j l, entry2 (src_sal src) j l = oX (sal l j)) -> (forall j l, entry2 (src_ptmp src) j l = oX (tmp l j)) ->
  (forall j l, entry2 (src_pres src) j l = oX (pre l j)) -> (forall j l, entry2 (m_cols (la_ptmp d)) j l = oX (la l j)) ->
  (forall m, In m [la_ptmp d; la_mapped_sal d; la_map_sal_errors d] -> length (m_cols m) = length nos) -> length longs = length nos ->
  cf_theta_lt c = bound tlt -> cf_theta_gt c = bound tgt -> cf_pres_lt c = bound plt -> cf_pres_gt c = bound pgt ->
  mx = (-1)%Z \/ mx = 0%Z -> cf_breaks c = [] -> cf_calseries c = map Fin flags -> (length flags <= length nos)%nat ->
  (forall v, v <> 0 -> In v flags -> ready interp1d c_from_sp src d nos flags sal tmp pre la tlt tgt plt pgt pct mx v) ->
  selected_hist d <> [] -> cf_percent c = Some [[Fin pct]] -> right_rows flags (cf_max_breaks c) ->
  (forall row, In row (cf_max_breaks c) -> row = [Fin (IZR mx)]) -> cf_max_breaks c <> [] ->
  forall g, exists r g', piecewisefit det solve inv least_squares rng randn interp1d interp2d tbase c_from_sp sp_from_c
    (mkCovConfig (Fin long_scale) (Fin lat_scale) (Fin phi) pv) src pos d (Ok c) g = (Ok r, g').
Proof. exact whole_total. Qed.
Print Assumptions C124_completes.

(* floats of n profiles, the first k without mapped salinity: the run completes, and the factor by which
   the mapped exceed the measured salinities is found *)
Example C124_case : forall n k a b mx, (k + 2 <= n <= 90)%nat -> mx = (-1)%Z \/ mx = 0%Z -> exists r, many_run n k a b mx = (Ok r, tt).
Proof. intros n k a b mx H. exact (many_completes n k H a b mx). Qed.
Example C123_case : forall n k a, (k + 2 <= n <= 90)%nat -> exists r, many_run n k a 0 0 = (Ok r, tt) /\
  (forall j, (j < n)%nat -> entry1 (k_factor r) j = Fin a /\ entry1 (k_deriv r) j = Fin 0) /\
  (forall j l, (k <= j < n)%nat -> (l < 2)%nat -> exists s, entry2 (src_sal (many_src n)) j l = Fin s /\ entry2 (k_sal r) j l = Fin (a * s)).
Proof.
  intros n k a H. destruct (many_completes n k H a 0 0 (or_intror eq_refl)) as (r & E). exists r. split; [exact E|].
  split; [exact (many_offset n k H a 0 r E)|exact (many_salinity n k H a 0 r E)].
Qed.
Example C123_case_drift : forall a b, exists r, many_run 6 0 a b 0 = (Ok r, tt) /\
  forall j, (j < 6)%nat -> entry1 (k_factor r) j = Fin (a + b * INR (S j)) /\ entry1 (k_deriv r) j = Fin b.
Proof.
  intros a b. destruct (many_completes 6 0 ltac:(lia) a b 0 (or_intror eq_refl)) as (r & E). exists r. split; [exact E|].
  intros j Hj. replace (INR (S j)) with (INR (S j) + INR 0) by (cbn [INR]; ring). exact (many_drift 0 a b r ltac:(lia) E j Hj).
Qed.

(* a drift is not recovered if the first profile has no sample: the curve is one profile too early *)
Theorem C123_drift_refuted : exists k b r, follows (fun s _ _ => s) (many_src (6 + k)) (many_map k 1 b (6 + k)) (many_nos (6 + k)) (seq 0 (6 + k)) (fun x => 1 + b * x) /\
  many_run (6 + k) k 1 b 0 = (Ok r, tt) /\
  forall j, (j < 6 + k)%nat -> exists f, entry1 (k_factor r) j = Fin f /\ f <> 1 + b * nth j (many_nos (6 + k)) 0.
Proof. exact drift_shifted. Qed.
Print Assumptions C123_drift_refuted.
