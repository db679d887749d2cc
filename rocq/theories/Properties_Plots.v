(* Properties C100-C111, C143: pyowc/plot/plots.py, utils.py and dashboard.py *)
From Coq Require Import String ZArith List Bool Reals Lra Lia Sorted Permutation.
From Verif Require Import Num Np Finders Spec_Finders Proofs_Thetas3 MapProfile Spec_Mapping Mapping Proofs_Mapping4 Config Calib Dashboard DemoNum
  Pyplot Plots Spec_Plots2 Spec_Plots3 Proofs_Plots1 Proofs_Plots4 Proofs_Plots6 Proofs_Plots7 Proofs_Plots8 Proofs_Plots9 Proofs_Plots10 Proofs_Plots11 Proofs_Plots12
  Proofs_PlotsEx Proofs_CalibEx Spec_Plots4 Spec_Plots.
Import ListNotations.
Local Open Scope nat_scope.

(* ---- C100 ---- *)
(* profile i is in the legend if i is a multiple of the stride and less than the number of the last
   profile; at most 30 are *)
Theorem C100_theta_sal_legend : forall (sal theta map_sal map_theta map_errors : list (list XR)) index nos z p name title, sal <> [] ->
  let profiles := map (fun z => Fin (IZR z)) (nos ++ [z]) in
  let plot := theta_sal_plot sal theta map_sal map_theta map_errors index profiles p name title in
  completes plot ->
  legend_numbers (drawn plot) = map (fun i => nth i profiles NaN) (filter (in_legend (length sal) z) (seq 0 (length sal)))
  /\ length (legend_numbers (drawn plot)) <= 30.
Proof. exact legend_drawn. Qed.
Print Assumptions C100_theta_sal_legend.
Example C100_case n nos z p name title (H : 1 <= n) (Hl : length nos + 1 = n) :
  completes (theta_sal_plot (one_curve n) (one_curve n) [] [] [] [] (map (fun z => Fin (IZR z)) (nos ++ [z])) p name title).
Proof. exact (curves_complete n nos z p name title H Hl). Qed.
(* with the numbers 3, 2, 1 only the first profile is in the legend, and none if the last number is 0 *)
Theorem C100_short_legend_refuted : exists (sal theta map_sal map_theta map_errors : list (list XR)) index profiles,
  forall p name title, let plot := theta_sal_plot sal theta map_sal map_theta map_errors index profiles p name title in
  completes plot /\ length sal = 3 /\ length profiles = 3 /\ legend_numbers (drawn plot) = [Fin 3].
Proof. exact short_legend. Qed.
Print Assumptions C100_short_legend_refuted.
Theorem C100_empty_legend_refuted : exists (sal theta map_sal map_theta map_errors : list (list XR)) index profiles,
  forall p name title, let plot := theta_sal_plot sal theta map_sal map_theta map_errors index profiles p name title in
  completes plot /\ length sal = 1 /\ length profiles = 1 /\ legend_numbers (drawn plot) = [].
Proof. exact empty_legend. Qed.
Print Assumptions C100_empty_legend_refuted.

(* ---- C101 ---- *)
(* one curve per profile, and an error bar for every level found in it *)
Theorem C101_theta_sal_profiles : forall (T : Type) (NT : Num T) (sal theta map_sal map_theta map_errors : list (list T)) index profiles p name title,
  let plot := theta_sal_plot sal theta map_sal map_theta map_errors index profiles p name title in
  completes plot ->
  exists labels : nat -> label T,
    drawn plot =
      flat_map (fun i => Curve (nth i sal []) (nth i theta []) (labels i) ::
        flat_map (fun row => match nth i row None with
                             | Some r => [Bars true [nth r (nth i map_sal []) nnan] [nth r (nth i map_theta []) nnan] [nth r (nth i map_errors []) nnan]]
                             | None => [] end) index) (seq 0 (length sal)) /\
    (forall i, labels i = NoLabel \/ labels i = Number (nth i profiles nnan)) /\
    saved_names plot = [plot_file p name ("_" ++ title ++ "_theta_sal")].
Proof. exact @theta_sal_profiles. Qed.
Print Assumptions C101_theta_sal_profiles.
Example C101_case : completes barred /\ length (filter is_bar (drawn barred)) = 3.
Proof. exact barred_completes. Qed.

(* ---- C102 ---- *)
(* the limits are those of the historical profiles, widened by 20 and 15 degrees *)
Theorem C102_trajectory_limits : forall (floats : list (R * R * R)) (clim : list (R * R)) p name x0 x1 y0 y1,
  least (map fst clim) x0 -> greatest (map fst clim) x1 -> least (map snd clim) y0 -> greatest (map snd clim) y1 ->
  let plot := trajectory_plot (map rowX floats) (map placeX clim) p name in
  completes plot /\ saved_names plot = [plot_file p name "_trajectory"] /\
  In (Limits true (Fin (x0 - 20)) (Fin (x1 + 20))) (drawn plot) /\ In (Limits false (Fin (y0 - 15)) (Fin (y1 + 15))) (drawn plot) /\
  forall h a b, In (Limits h a b) (drawn plot) ->
    h = true /\ a = Fin (x0 - 20) /\ b = Fin (x1 + 20) \/ h = false /\ a = Fin (y0 - 15) /\ b = Fin (y1 + 15).
Proof. exact traj_limits. Qed.
Print Assumptions C102_trajectory_limits.
(* the curves are the positions of the float and of the historical profiles *)
Theorem C102_trajectory_places : forall (floats : list (R * R * R)) (clim : list (R * R)) p name x0 x1 y0 y1,
  least (map fst clim) x0 -> greatest (map fst clim) x1 -> least (map snd clim) y0 -> greatest (map snd clim) y1 ->
  let plot := trajectory_plot (map rowX floats) (map placeX clim) p name in
  flat_map (fun d => match d with Curve xs ys l => [(xs, ys, l)] | _ => [] end) (drawn plot) =
  [(map (fun f => Fin (snd (fst f))) floats, map (fun f => Fin (snd f)) floats, Text "Float Profiles");
   (map (fun q => Fin (fst q)) clim, map (fun q => Fin (snd q)) clim, Text "Climatology")].
Proof. exact traj_places. Qed.
Print Assumptions C102_trajectory_places.
(* the first, the last and every third profile are annotated, with their numbers at their places *)
Theorem C102_trajectory_notes : forall (floats : list (R * R * R)) (clim : list (R * R)) p name x0 x1 y0 y1,
  least (map fst clim) x0 -> greatest (map fst clim) x1 -> least (map snd clim) y0 -> greatest (map snd clim) y1 ->
  forall number x y shade,
  In (Note number x y shade) (drawn (trajectory_plot (map rowX floats) (map placeX clim) p name)) <->
  exists i f, nth_error floats i = Some f /\ annotated (length floats) i /\ Note number x y shade = note_of (length floats) i f.
Proof. exact traj_note_iff. Qed.
Print Assumptions C102_trajectory_notes.
(* the longitudes of the dashboard *)
Theorem C102_longitudes : forall x, (0 <= x <= 360)%R ->
  exists y, east_west (Fin x) = Fin y /\ (-180 < y <= 180)%R /\ (y = x \/ y = x - 360)%R.
Proof. exact east_west_range. Qed.
Print Assumptions C102_longitudes.
Example C102_case : least (map fst near_crossing) 179 /\ greatest (map fst near_crossing) 179 /\ least (map snd near_crossing) 9 /\ greatest (map snd near_crossing) 11.
Proof. exact crossing_limits. Qed.
(* a float that crosses the meridian of 180 degrees leaves the plot, and profiles 2 degrees apart are
   drawn 358 degrees apart *)
Theorem C102_inside_limits_refuted : forall p name, exists floats clim f a b,
  In f floats /\ In (Limits true (Fin a) (Fin b)) (drawn (trajectory_plot (map rowX floats) (map placeX clim) p name)) /\ ~ (a <= snd (fst f) <= b)%R.
Proof. exact leaves_plot. Qed.
Print Assumptions C102_inside_limits_refuted.
Theorem C102_neighbours_refuted : exists x x' y y', (0 <= x <= 360 /\ 0 <= x' <= 360 /\ Rabs (x - x') = 2)%R /\
  east_west (Fin x) = Fin y /\ east_west (Fin x') = Fin y' /\ Rabs (y - y') = 358%R.
Proof. exact dateline. Qed.
Print Assumptions C102_neighbours_refuted.

(* ---- C103 ---- *)
(* a sample outside the windows in a column without a row of the same number *)
Theorem C103_no_such_row : forall interp1d w levels nr nc pct nos p name th mats,
  thetas_run interp1d (w_float w) nr nc pct = Ok (th, mats) -> no_such_row (w_float w) nr nc ->
  sal_var_run interp1d w levels nr nc pct nos p name = ([], Some IndexError).
Proof. exact sal_var_no_row. Qed.
Print Assumptions C103_no_such_row.
Example C103_case : (exists th mats, thetas_run line (w_float cold_data) 2 3 0 = Ok (th, mats)) /\ no_such_row (w_float cold_data) 2 3.
Proof. exact (conj cold_run cold_no_row). Qed.
(* samples inside the windows are not shown, and the plot fails *)
Theorem C103_kept_samples_shown_refuted : exists d nr nc i j, i < nr /\ j < nc /\ kept d i j /\ ~ shown d nr nc i j.
Proof. exact kept_not_shown. Qed.
Print Assumptions C103_kept_samples_shown_refuted.
Theorem C103_kept_samples_plotted_refuted : forall nos p name, length nos = 3 -> exists w,
  (exists th mats, thetas_run line (w_float w) 2 3 0 = Ok (th, mats)) /\ (forall j, kept (w_float w) 1 j) /\
  fails (sal_var_run line w 2 2 3 0 nos p name) ValueError.
Proof. exact kept_not_plotted. Qed.
Print Assumptions C103_kept_samples_plotted_refuted.

(* ---- C104 ---- *)
(* the curves, error bars and bands on every level *)
Theorem C104_sal_var_values : forall interp1d w levels nr nc pct nos p name v th mats,
  linear2 interp1d -> visible (w_float w) nr nc v -> errors_known w ->
  thetas_run interp1d (w_float w) nr nc pct = Ok (th, mats) -> length nos = nc -> 1 <= levels ->
  let plot := sal_var_run interp1d w levels nr nc pct nos p name in
  completes plot ->
  exists F M Me C Ce,
    rows_of v (d_sal (w_float w)) (d_sal (w_float w)) levels nr nc (t_levels th) F /\
    rows_of v (w_map w) (w_map w) levels nr nc (t_levels th) M /\
    rows_of v (w_map w) (w_map_err w) levels nr nc (t_levels th) Me /\
    rows_of v (w_cal w) (w_cal w) levels nr nc (t_levels th) C /\
    rows_of v (w_cal w) (w_cal_err w) levels nr nc (t_levels th) Ce /\
    curves_labelled "uncalibrated float" (drawn plot) = F /\
    curves_labelled "mapped salinity" (drawn plot) = M /\ error_bars (drawn plot) = combine M Me /\
    curves_labelled "calibrated float w/ 1xerr" (drawn plot) = C /\
    bands (drawn plot) = map (fun q => error_band nos (fst q) (snd q)) (combine C Ce).
Proof. exact sal_var_values. Qed.
Print Assumptions C104_sal_var_values.
Example C104_case nc nos p name (Hn : 2 <= nc) (Hl : length nos = nc) :
  linear2 line /\ visible (w_float two_data) 2 nc two_levels /\ errors_known two_data /\ completes (sal_var_run line two_data 2 2 nc 0 nos p name).
Proof. exact (conj line_linear2 (conj (two_visible 2 nc) (conj two_errors (two_variance nc nos p name Hn Hl)))). Qed.

(* ---- C105 ---- *)
(* when the anomaly plot succeeds *)
Theorem C105_anomaly_outcome : forall f argsort show, interpolates f -> forall ts ss nos p name title,
  completes (sal_anom_plot f argsort show (map (map oX) ss) (map (map oX) ts) nos p name title) <->
  (exists t, In t ts /\ has_temp t) /\
  (pp_bounds p = [] \/ length nos = length ss /\ 2 <= length ss /\ Forall (fun b => nisfin (fst b) = true /\ nisfin (snd b) = true) (pp_bounds p)).
Proof. exact sal_anom_outcome. Qed.
Print Assumptions C105_anomaly_outcome.
(* on every temperature the anomalies have the median 0 *)
Theorem C105_anomaly_balanced : forall f argsort show, interpolates f -> forall ts ss nos p name title,
  let plot := sal_anom_plot f argsort show (map (map oX) ss) (map (map oX) ts) nos p name title in
  completes plot -> exists z,
    drawn plot = flat_map (fun b => [Contours nos (map Fin theta_grid) (map (map oX) z); Limits false (fst b) (snd b)]) (pp_bounds p) /\
    length z = length ss /\ (forall c, In c z -> length c = 300) /\
    forall i, i < 300 -> is_median 0 (finite_values (row i (map (map oX) z))).
Proof. exact sal_anom_balanced. Qed.
Print Assumptions C105_anomaly_balanced.
(* an offset of all salinities leaves no trace *)
Theorem C105_anomaly_offset : forall f argsort show, interpolates f -> forall c ts ss nos p name title,
  sal_anom_plot f argsort show (map (map oX) (map (map (shift c)) ss)) (map (map oX) ts) nos p name title =
  sal_anom_plot f argsort show (map (map oX) ss) (map (map oX) ts) nos p name title.
Proof. exact sal_anom_shift. Qed.
Print Assumptions C105_anomaly_offset.
(* a drift of otherwise equal profiles is shown as such, from the median *)
Theorem C105_anomaly_drift : forall f argsort show, interpolates f -> forall t s cs nos p name title,
  let ts := map (fun _ => t) cs in let ss := map (fun c => map (shift c) s) cs in
  let plot := sal_anom_plot f argsort show (map (map oX) ss) (map (map oX) ts) nos p name title in
  completes plot -> exists m (known : R -> bool),
    is_median m cs /\
    (forall xs ys, t = map Some xs -> s = map Some ys -> length xs = length ys -> 3 <= length xs -> StronglySorted Rlt xs ->
       argsort (map Fin xs) = seq 0 (length xs) -> forall x, known x = true <-> f (map Fin xs) (map Fin ys) (Fin x) <> NaN) /\
    drawn plot = flat_map (fun b => [Contours nos (map Fin theta_grid) (map (fun c => map (fun x => if known x then Fin (c - m) else NaN) theta_grid) cs);
                                     Limits false (fst b) (snd b)]) (pp_bounds p).
Proof. exact sal_anom_drift. Qed.
Print Assumptions C105_anomaly_drift.
(* if most profiles agree, the median is theirs *)
Theorem C105_majority : forall m v l, is_median m l -> length l < 2 * equal_to v l -> m = v.
Proof. exact majority_median. Qed.
Print Assumptions C105_majority.
(* a profile with fewer than three samples of known temperature and salinity is not drawn *)
Theorem C105_few_samples : forall argsort, (forall l, Permutation (argsort l) (seq 0 (length l))) ->
  forall f show ts ss nos p name title xs ys z j,
  let plot := sal_anom_plot f argsort show (map (map oX) ss) (map (map oX) ts) nos p name title in
  In (Contours xs ys z) (drawn plot) -> j < length ss ->
  length (nth j ts []) = length (nth j ss []) -> known_pairs (nth j ts []) (nth j ss []) < 3 ->
  Forall (fun x => x = NaN) (nth j z []).
Proof. exact anomaly_short. Qed.
Print Assumptions C105_few_samples.
Example C105_case show nos name title (Hl : length nos = 3) :
  interpolates lin /\ length drift_offsets < 2 * equal_to 0 drift_offsets /\
  completes (sal_anom_plot lin in_order show (map (map oX) (map (fun c => map (shift c) drift_sals) drift_offsets))
               (map (map oX) (map (fun _ => drift_temps) drift_offsets)) nos drift_plots name title) /\
  lin (map Fin [2; 4; 6]%R) (map Fin [34; 35; 36]%R) (Fin 3) <> NaN.
Proof. exact (conj lin_interpolates (conj drift_majority (conj (drift_completes show nos name title Hl) drift_known))). Qed.

(* ---- C106 ---- *)
(* a float with a single profile *)
Theorem C106_single_anomaly : forall (T : Type) (NT : Num T) f argsort show (sal ptmp : list (list T)) nos p name title,
  length sal = 1 -> pp_bounds p <> [] ->
  let plot := sal_anom_plot f argsort show sal ptmp nos p name title in
  ~ completes plot /\ drawn plot = [] /\ saved_names plot = [].
Proof. exact @sal_anom_single. Qed.
Print Assumptions C106_single_anomaly.
Theorem C106_single_dashboard : forall (T : Type) (NT : Num T) interp1d f argsort show (src : source T) pos d c k levels p name,
  length (src_sal src) = 1 -> pp_bounds p <> [] ->
  let dash := plot_diagnostics interp1d f argsort show src pos d c k levels p name in
  ~ completes dash /\ forall g, In g (saved_names dash) -> g = plot_file p name "_trajectory" \/ g = plot_file p name "_uncalibrated_theta_sal".
Proof. exact @dashboard_single. Qed.
Print Assumptions C106_single_dashboard.
Example C106_case : length [[Fin 34]] = 1 /\ pp_bounds drift_plots <> [].
Proof. split; [reflexivity|discriminate]. Qed.

(* ---- C107 ---- *)
(* the two panels of the salinity curve plot *)
Theorem C107_salinity_curve : forall sal cal cal_err sta sta_mean factor factor_err nos lo hi p name,
  least nos lo -> greatest nos hi -> (exists c x, In c cal /\ In (Some x) c) ->
  let averages a := map (fun q => average (differences (fst q) (snd q))) (combine a sal) in
  length factor = length nos -> length factor_err = length nos -> length (averages cal) = length nos -> length (map average cal_err) = length nos ->
  let plot := cal_sal_curve_plot (map oXs sal) (map oXs cal) (map oXs cal_err) (map oXs sta) (oXs sta_mean) (oXs factor) (oXs factor_err) (map Fin nos) p name in
  completes plot /\
  alone true plot (plot_file p name "_salinity_curve") =
    Some (in_axes 1 (panel nos lo hi factor factor_err sta_mean 1) ++ in_axes 2 (panel nos lo hi (averages cal) (map average cal_err) (averages sta) 0)).
Proof. exact cal_sal_file. Qed.
Print Assumptions C107_salinity_curve.
Example C107_case : least two_nos 1 /\ greatest two_nos 2 /\ (exists c x, In c two_cal /\ In (Some x) c) /\
  length (map (fun q => average (differences (fst q) (snd q))) (combine two_cal two_sal)) = length two_nos /\
  average (differences (nth 0 two_cal []) (nth 0 two_sal [])) = Some (1 / 10)%R.
Proof. exact two_curve. Qed.
(* without a calibrated salinity nothing is drawn or saved *)
Theorem C107_nothing_calibrated : forall (T : Type) (NT : Num T) (sal cal cal_err sta : list (list T)) sta_mean factor factor_err nos p name,
  (forall c x, In c cal -> In x c -> nisnan x = true) ->
  cal_sal_curve_plot sal cal cal_err sta sta_mean factor factor_err nos p name = ([], None).
Proof. exact @cal_sal_nothing. Qed.
Print Assumptions C107_nothing_calibrated.

(* ---- C108 ---- *)
(* if show closes the figures, every file holds one of the eight plots, as if drawn on its own, and the
   files of different plots have different names *)
Theorem C108_dashboard_files : forall (T : Type) (NT : Num T) interp1d interp1d_nan argsort show (src : source T) pos d c k levels p name,
  let dash := plot_diagnostics interp1d interp1d_nan argsort show src pos d c k levels p name in
  completes dash ->
  exists floats theta_lt theta_gt pres_lt pres_gt percent th mats,
    run_levels interp1d src d pos c floats theta_lt theta_gt pres_lt pres_gt percent th mats /\
    let plots := eight_plots interp1d interp1d_nan argsort show src d k levels p name floats theta_lt theta_gt pres_lt pres_gt percent th in
    (forall i f, i < 8 -> In f (saved_names (nth i plots pnil)) ->
       In f (saved_names dash) /\ alone true dash f = alone true (nth i plots pnil) f /\ file_of show p name i f
       /\ forall j, file_of show p name j f -> j = i) /\
    (forall f, In f (saved_names dash) -> exists i, i < 8 /\ In f (saved_names (nth i plots pnil))).
Proof. exact @dashboard_own_files. Qed.
Print Assumptions C108_dashboard_files.
Example C108_case : completes demo_dash.
Proof. exact demo_dash_completes. Qed.

(* ---- C109 ---- *)
(* if figures stay open (no display), the file of the salinity curves holds the trajectory plot with the
   second panel drawn over it, and that of the salinity profiles the same below its own *)
Theorem C109_open_figures : forall (T : Type) (NT : Num T) interp1d interp1d_nan argsort show (src : source T) pos d c k levels p name,
  forallb (fun c => forallb nisnan c) (k_sal k) = false ->
  let dash := plot_diagnostics interp1d interp1d_nan argsort show src pos d c k levels p name in
  completes dash ->
  exists floats theta_lt theta_gt pres_lt pres_gt percent th mats,
    float_rows (src_no src) (concat (ps_lat pos)) (map east_west (concat (ps_long pos))) = Ok floats /\
    find_10thetas interp1d (src_levels src) (length (src_sal src)) (of_cols (src_sal src)) (of_cols (src_ptmp src)) (of_cols (src_pres src))
      (of_cols (m_cols (la_ptmp d))) theta_lt theta_gt pres_lt pres_gt percent = Ok (th, mats) /\
    let plots := eight_plots interp1d interp1d_nan argsort show src d k levels p name floats theta_lt theta_gt pres_lt pres_gt percent th in
    let curve := nth 3 plots pnil in let profile := nth 7 plots pnil in
    let mixed := in_axes 0 (drawn (trajectory_plot floats (hist_places d) p name) ++ skipn 6 (drawn curve)) in
    alone true curve (plot_file p name "_salinity_curve") = Some (in_axes 1 (firstn 6 (drawn curve)) ++ in_axes 2 (skipn 6 (drawn curve))) /\
    alone false dash (plot_file p name "_salinity_curve") = Some mixed /\
    exists own, alone true profile (plot_file p name "_salinity_profile") = Some own /\
      alone false dash (plot_file p name "_salinity_profile") = Some (mixed ++ own).
Proof. exact @dashboard_open_files. Qed.
Print Assumptions C109_open_figures.
Example C109_case : forallb (fun c => forallb nisnan c) (k_sal cal_result) = false /\ completes demo_dash.
Proof. exact (conj demo_calibrated demo_dash_completes). Qed.
Theorem C109_same_files_refuted : exists (dash : prog (item ZN)) f g, completes dash /\ alone false dash f <> alone true dash f /\ alone false dash g <> alone true dash g.
Proof. exact (ex_intro _ demo_dash (ex_intro _ _ (ex_intro _ _ (conj demo_dash_completes demo_dash_mixed)))). Qed.
Print Assumptions C109_same_files_refuted.

(* ---- C110 ---- *)
(* one file per level, or the first file only and a ValueError *)
Theorem C110_sal_var_outcome : forall interp1d w levels nr nc pct nos p name v th mats,
  linear2 interp1d -> visible (w_float w) nr nc v -> errors_known w ->
  thetas_run interp1d (w_float w) nr nc pct = Ok (th, mats) -> ~ no_such_row (w_float w) nr nc -> no_ties v nr nc -> length nos = nc -> 1 <= levels <= 10 ->
  let plot := sal_var_run interp1d w levels nr nc pct nos p name in
  completes plot /\ saved_names plot = map (fun i => plot_file p name ("_salinity_variance_" ++ string_of_nat i)) (seq 1 levels) /\
    (exists l j s, l < levels /\ j < nc /\ level_value v (d_sal (w_float w)) (d_sal (w_float w)) nr (nth l (t_levels th) NaN) j (Fin s)) \/
  fails plot ValueError /\ saved_names plot = [plot_file p name "_salinity_variance_1"] /\
    (forall l j, l < levels -> j < nc -> level_value v (d_sal (w_float w)) (d_sal (w_float w)) nr (nth l (t_levels th) NaN) j NaN).
Proof. exact sal_var_outcome. Qed.
Print Assumptions C110_sal_var_outcome.
(* more than ten levels *)
Theorem C110_too_many_levels : forall interp1d w levels nr nc pct nos p name th mats,
  thetas_run interp1d (w_float w) nr nc pct = Ok (th, mats) -> ~ no_such_row (w_float w) nr nc -> 10 < levels ->
  sal_var_run interp1d w levels nr nc pct nos p name = ([], Some IndexError).
Proof. exact sal_var_many. Qed.
Print Assumptions C110_too_many_levels.
Example C110_case nc nos p name (Hn : 2 <= nc) (Hl : length nos = nc) :
  completes (sal_var_run line two_data 2 2 nc 0 nos p name) /\ ~ no_such_row (w_float two_data) 2 nc.
Proof. exact (conj (two_variance nc nos p name Hn Hl) (two_rows 2 nc)). Qed.
Theorem C110_single_profile_refuted : forall nos p name, length nos = 1 -> exists w,
  fails (sal_var_run line w 2 2 1 0 nos p name) ValueError /\ saved_names (sal_var_run line w 2 2 1 0 nos p name) = [plot_file p name "_salinity_variance_1"].
Proof. exact (fun nos p name Hl => ex_intro _ two_data (single_variance nos p name Hl)). Qed.
Print Assumptions C110_single_profile_refuted.

(* ---- C111 ---- *)
(* the mapped file of update_salinity_mapping is the one that set_calseries and calc_piecewisefit read
   at its path, and the one of the dashboard *)
Theorem C111_mapped_file : forall cwd p name, abspath cwd (dash_grid_path p name) = save_path cwd (map_paths_of p) name.
Proof. exact mapped_dash. Qed.
Print Assumptions C111_mapped_file.
(* the settings written by set_calseries: read by calc_piecewisefit iff two postfixes agree, by the
   dashboard iff two others do *)
Theorem C111_settings_calibration : forall cwd p dir name,
  plain_name (cp_calseries_prefix p ++ (name ++ cp_calib_postfix p)) -> plain_name (cp_calseries_prefix p ++ (name ++ cp_mapped_postfix p)) ->
  abspath cwd (set_calseries_path p dir name) = abspath cwd (calseries_path p dir name) <-> cp_calib_postfix p = cp_mapped_postfix p.
Proof. exact series_calibration. Qed.
Print Assumptions C111_settings_calibration.
Theorem C111_settings_dashboard : forall cwd p dir name,
  plain_name (cp_calseries_prefix p ++ (name ++ cp_calib_postfix p)) -> plain_name (cp_calseries_prefix p ++ (name ++ cp_source_postfix p)) ->
  abspath cwd (set_calseries_path p dir name) = abspath cwd (dash_series_path p dir name) <-> cp_calib_postfix p = cp_source_postfix p.
Proof. exact series_dashboard. Qed.
Print Assumptions C111_settings_dashboard.
Theorem C111_calibration_dashboard : forall cwd p dir name,
  plain_name (cp_calib_prefix p ++ (name ++ cp_calib_postfix p)) -> plain_name (cp_calib_prefix p ++ (name ++ cp_source_postfix p)) ->
  abspath cwd (calib_path p dir name) = abspath cwd (dash_cal_path p dir name) <-> cp_calib_postfix p = cp_source_postfix p.
Proof. exact calib_dashboard. Qed.
Print Assumptions C111_calibration_dashboard.
(* the dashboard after a calibration: it shows the new calibration, or fails, or shows an older one *)
Theorem C111_dashboard_after_calibration : forall (T : Type) (NT : Num T) interp1d f argsort show (rng : Type) fit
    (p : cal_paths) dir name (fl fl' : Calib.files T) (g g' : rng) d s c,
  calc_piecewisefit fit p dir name fl g = (Ok tt, fl', g') ->
  fl_mapped fl (dash_grid_path p name) = Some d -> fl_source fl (dash_source_path p dir name) = Some s -> fl_calseries fl (dash_series_path p dir name) = Some c ->
  exists k, fl_calib fl' (calib_path p dir name) = Some k /\ forall levels pp,
    (cp_calib_postfix p = cp_source_postfix p ->
       dashboard interp1d f argsort show fl' p dir name levels pp = plot_diagnostics interp1d f argsort show (fst s) (snd s) d c k levels pp name) /\
    (cp_calib_postfix p <> cp_source_postfix p -> fl_calib fl (dash_cal_path p dir name) = None ->
       dashboard interp1d f argsort show fl' p dir name levels pp = ([], Some FileNotFoundError)) /\
    (cp_calib_postfix p <> cp_source_postfix p -> forall k', fl_calib fl (dash_cal_path p dir name) = Some k' ->
       dashboard interp1d f argsort show fl' p dir name levels pp = plot_diagnostics interp1d f argsort show (fst s) (snd s) d c k' levels pp name).
Proof. exact @dashboard_reads_calibration. Qed.
Print Assumptions C111_dashboard_after_calibration.
Example C111_case : cp_calib_postfix default_paths = cp_source_postfix default_paths /\ cp_calib_postfix default_paths = cp_mapped_postfix default_paths
  /\ cp_calib_postfix other_paths <> cp_source_postfix other_paths.
Proof. split; [reflexivity|]. split; [reflexivity|discriminate]. Qed.

(* ---- C143 ---- *)
Theorem C143_completes : forall (T : Type) (NT : Num T) (sal ptmp pres : list (list T)) v th tl pl p name,
  completes (t_s_profile_plot sal ptmp pres v th tl pl p name) <->
  same_levels sal ptmp /\ length v = length th /\ same_levels ptmp (downward pres) /\ same_levels sal (downward pres).
Proof. exact @panels_complete. Qed.
Print Assumptions C143_completes.
Theorem C143_panels : forall (T : Type) (NT : Num T) (sal ptmp pres : list (list T)) v th tl pl p name closes,
  let plot := t_s_profile_plot sal ptmp pres v th tl pl p name in
  completes plot ->
  saved_names plot = [plot_file p name "_salinity_profile"] /\
  alone closes plot (plot_file p name "_salinity_profile") = Some (four_panels sal ptmp pres v th tl pl).
Proof. exact @panels_content. Qed.
Print Assumptions C143_panels.
Example C143_case : completes panel_demo.
Proof. exact panel_demo_completes. Qed.
