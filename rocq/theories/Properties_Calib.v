(* Properties C32, C70, C94-C99: calc_piecewisefit of pyowc/calibration.py *)
From Coq Require Import String Ascii.
From Coq Require Import ZArith List Bool Reals Lra Lia Sorted.
From Verif Require Import Num Np Utilities Finders Stats FitCond Topo MapProfile Mapping Config Calib DemoNum
  Spec_Utilities Spec_Finders Spec_Stats Spec_FitCond Spec_Map Spec_Helper Spec_MapLevel Spec_Calib
  Proofs_MapLevel Proofs_Calib Proofs_Calib3 Proofs_Calib4 Proofs_Calib6 Proofs_Calib7 Proofs_Calib8 Proofs_Calib9 Proofs_CalibEx.
Import ListNotations.
Local Open Scope R_scope.

(* ---- C32 ---- *)
(* the difference of the latitudes is divided by the parameter called long, that of the longitudes by
   the one called lat *)
Theorem C32_parameter_names : forall lat_arg long_arg age phi pv l1 l2, lat_arg <> 0 -> long_arg <> 0 -> (pv = true -> phi <> 0) ->
  (pv = true -> l1 <> [] /\ l2 <> [] /\ forall p, In p (l1 ++ l2) -> p_z p <> 0) ->
  exists K, covar_xyt_pv (map fpoint l1) (map fpoint l2) (Fin lat_arg) (Fin long_arg) (Fin age) (Fin phi) (if pv then 1%Z else 0%Z) = Ok K /\
    forall i j, (i < length l1)%nat -> (j < length l2)%nat ->
    let p := nth i l1 dpointR in let q := nth j l2 dpointR in
    K i j = Fin (exp (- (((p_lat p - p_lat q) / long_arg) ^ 2 + ((p_long p - p_long q) / lat_arg) ^ 2
                         + (if Req_EM_T age 0 then 0 else ((p_date p - p_date q) / age) ^ 2)
                         + (if pv then vorticity_distance2 phi (vort (p_lat p) (p_z p)) (vort (p_lat q) (p_z q)) else 0)))).
Proof. exact parameter_names. Qed.
Print Assumptions C32_parameter_names.
(* in the mapping of a level: the estimate belongs to latitude by the latitude scale and longitude by the
   longitude scale (separation2, config_scales) *)
Theorem C32_mapping_scales : forall inv cfg large small g t l nv, inv_ok inv -> config_scales cfg large small ->
  scales_nonzero large -> scales_nonzero small -> has_depth large (g :: map place l) ->
  (5 < length l)%nat -> noise_estimate (kept l) nv -> 0 < nv ->
  exists value err, two_stage large small nv g (kept l) value err /\
    map_level inv cfg (fpoint g) t (hist_of (map known l))
    = Ok (Some (mkLevelOut t (Fin value) (Fin err) (Fin nv) (Fin (pop_var (map hp_sal (kept l))))
                           (map (fun q => (Fin (hp_long q), Fin (hp_lat q))) (kept l)))).
Proof. exact level_mapped. Qed.
Print Assumptions C32_mapping_scales.
(* in the calibration: longitude by the latitude scale, latitude by the longitude scale, vorticity at
   the longitude *)
Theorem C32_calibration_scales : forall interp1d interp2d tbase c_from_sp src longs lats (depth : nat -> R) l d c per idx sd lat_scale long_scale phi pv t,
  float_coords interp2d tbase (mkPositions [map Fin longs] [map Fin lats]) = Ok l ->
  (forall j, (j < length longs)%nat -> c_2 (nth j l (mkCoord NaN NaN NaN)) = Fin (depth j) /\ depth j <> 0) ->
  lat_scale <> 0 -> long_scale <> 0 -> (pv = true -> phi <> 0) ->
  select_series interp1d src (Some l) d c per idx = Ok sd ->
  (forall i p, of_cols (ten sd (sd_ptmp sd)) i p = oX (t i p)) -> table_needed 10 (length idx) t ->
  exists fi, build_input c_from_sp (mkCovConfig (Fin long_scale) (Fin lat_scale) (Fin phi) pv) sd = Ok fi /\
    forall a b i j, (a < length idx)%nat -> (b < length idx)%nat -> (i < 10)%nat -> (j < 10)%nat ->
    let p := nth a idx 0%nat in let q := nth b idx 0%nat in
    fi_cov fi (a * 10 + i)%nat (b * 10 + j)%nat
    = Fin (exchanged lat_scale long_scale phi pv (nth p longs 0) (nth p lats 0) (depth p) (nth q longs 0) (nth q lats 0) (depth q)
           * vertical (fun i => t i a) i j).
Proof. exact calibration_scales. Qed.
Print Assumptions C32_calibration_scales.
Theorem C32_calibration_refuted : exists lat_scale long_scale lo la z lo' la' z', lat_scale <> 0 /\ long_scale <> 0 /\ z <> 0 /\ z' <> 0 /\
  exchanged lat_scale long_scale 1 false lo la z lo' la' z' <> exp (- (((la - la') / lat_scale) ^ 2 + ((lo - lo') / long_scale) ^ 2)).
Proof. exact exchanged_differs. Qed.
Print Assumptions C32_calibration_refuted.
Example C32_witness : float_coords (T := ZN) (fun _ _ _ _ _ => Ok (Some (-3000)%Z)) (fun p => Some (p mod 256)%Z) cal_pos
  = Ok [mkCoord (Some 20) (Some 50) (Some 3000); mkCoord (Some 21) (Some 50) (Some 3000);
        mkCoord (Some 20) (Some 51) (Some 3000); mkCoord (Some 21) (Some 51) (Some 3000)]%Z.
Proof. vm_compute. reflexivity. Qed.

(* ---- C70 ---- *)
Theorem C70_one_factor : forall det solve inv least_squares rng randn interp1d interp2d tbase c_from_sp sp_from_c cfg src pos d c flags (g : rng) r g',
  rectangular src -> cf_breaks c = [] -> cf_calseries c = map Fin flags ->
  piecewisefit det solve inv least_squares rng randn interp1d interp2d tbase c_from_sp sp_from_c cfg src pos d (Ok c) g = (Ok r, g') ->
  shaped src r /\ forall j, (j < length (src_no src))%nat ->
    (right_rows flags (cf_max_breaks c) -> in_series flags j -> calibrated c_from_sp sp_from_c src r j) /\ (~ in_series flags j -> missing r j).
Proof. exact c70_profiles. Qed.
Print Assumptions C70_one_factor.
Theorem C70_unit_factor : forall (c_from_sp sp_from_c : XR -> XR -> XR -> XR) src r j l,
  calibrated c_from_sp sp_from_c src r j -> (l < src_levels src)%nat -> entry1 (k_factor r) j = Fin 1 ->
  (exists c, c_from_sp (entry2 (src_sal src) j l) (entry2 (src_ptmp src) j l) (Fin 0) = Fin c) ->
  sp_from_c (c_from_sp (entry2 (src_sal src) j l) (entry2 (src_ptmp src) j l) (Fin 0)) (entry2 (src_ptmp src) j l) (Fin 0) = entry2 (src_sal src) j l ->
  entry2 (k_sal r) j l = entry2 (src_sal src) j l.
Proof. exact unit_factor. Qed.
Print Assumptions C70_unit_factor.
(* two runs whose files agree on the profiles of a series, whatever the other profiles are *)
Theorem C70_series_independent : forall det solve inv least_squares rng randn interp1d interp2d tbase c_from_sp sp_from_c
    cfg src src' pos pos' d d' c flags v (g g1 : rng) r r' g' g1' l l',
  rectangular src -> rectangular src' -> src_levels src = src_levels src' ->
  cf_breaks c = [] -> cf_calseries c = map Fin flags -> right_rows flags (cf_max_breaks c) -> v <> 0 ->
  float_coords interp2d tbase pos = Ok l -> float_coords interp2d tbase pos' = Ok l' ->
  (forall j, nth_error flags j = Some v -> same_profile src src' d d' l l' j) ->
  piecewisefit det solve inv least_squares rng randn interp1d interp2d tbase c_from_sp sp_from_c cfg src pos d (Ok c) g = (Ok r, g') ->
  piecewisefit det solve inv least_squares rng randn interp1d interp2d tbase c_from_sp sp_from_c cfg src' pos' d' (Ok c) g1 = (Ok r', g1') ->
  forall j, nth_error flags j = Some v -> same_calibration (src_levels src) r r' j.
Proof. exact c70_independent. Qed.
Print Assumptions C70_series_independent.
(* for all numbers: the run of Proofs_CalibEx.v *)
Theorem C70_any_numbers : forall T (HN : Num T) (HT : NumT T) det solve inv least_squares rng randn interp1d interp2d tbase c_from_sp sp_from_c cfg src pos d c (g : rng) r g',
  rectangular src -> cf_breaks c = [] ->
  piecewisefit (T := T) det solve inv least_squares rng randn interp1d interp2d tbase c_from_sp sp_from_c cfg src pos d (Ok c) g = (Ok r, g') ->
  shaped src r /\ forall j, (j < length (src_no src))%nat ->
    (accepted c -> (exists v, In v (series_flags (cf_calseries c)) /\ flagged (cf_calseries c) v j) -> calibrated c_from_sp sp_from_c src r j) /\
    ((forall v, In v (series_flags (cf_calseries c)) -> ~ flagged (cf_calseries c) v j) -> missing r j).
Proof. exact (fun T HN HT => profiles (T := T)). Qed.
Print Assumptions C70_any_numbers.
Example C70_witness : rectangular cal_src /\ cf_breaks cal_set = [] /\ accepted cal_set /\
  exists r, cal_run cal_src cal_set cal_map = (Ok r, 0%nat) /\ k_factor r = [Some 3; Some 3; None; Some 3]%Z /\
    entry2 (k_sal r) 1 3 = Some 3096%Z /\ entry2 (src_sal cal_src) 1 3 = Some 1032%Z /\ k_breaks r = [].
Proof. exact (conj cal_rectangular (conj eq_refl (conj cal_accepted cal_run_ok))). Qed.
Example C70_flags_witness : let flags := [1; 1; 0; 2] in
  right_rows flags [[0]] /\ right_rows flags [[0]; [1]] /\ in_series flags 3 /\ ~ in_series flags 2 /\ lists_series flags 1 [0; 1]%nat.
Proof.
  assert (R : forall rows : list (list R), (length rows = 1 \/ length rows = 2)%nat -> right_rows [1; 1; 0; 2] rows).
  { intros rows H. exists [1; 2]. split; [repeat constructor; lra|]. split; [|cbn [length]; tauto].
    intros v. cbn [In]. split.
    - intros [<-|[<-|[]]]; (split; [tauto|lra]).
    - intros ([<-|[<-|[<-|[<-|[]]]]] & NZ); tauto. }
  cbv zeta. split; [apply R; left; reflexivity|]. split; [apply R; right; reflexivity|].
  split; [exists 2; split; [reflexivity|lra]|]. split; [intros (v & E & NZ); cbn in E; congruence|].
  split; [repeat constructor|]. intros j. split.
  - intros [<-|[<-|[]]]; reflexivity.
  - intros E. destruct j as [|[|[|[|j]]]]; cbn in E; [cbn; tauto|cbn; tauto| | |destruct j; discriminate]; injection E as E; lra.
Qed.

(* ---- C94 ---- *)
(* the factor of the p-th profile of a series (in the order of the file) is the fit's value at the p-th
   smallest profile number *)
Theorem C94_order : forall det solve inv least_squares rng randn interp1d interp2d tbase c_from_sp sp_from_c cfg src pos d c flags nos v idx us (g : rng) r g',
  cf_breaks c = [] -> cf_calseries c = map Fin flags -> right_rows flags (cf_max_breaks c) -> src_no src = map Fin nos -> v <> 0 ->
  lists_series flags v idx -> idx <> [] -> NoDup (numbers_of nos idx) -> distinct_of (numbers_of nos idx) us ->
  piecewisefit det solve inv least_squares rng randn interp1d interp2d tbase c_from_sp sp_from_c cfg src pos d (Ok c) g = (Ok r, g') ->
  exists l per m f, float_coords interp2d tbase pos = Ok l /\
    fit_of det solve inv least_squares rng randn interp1d c_from_sp cfg src (Some l) d c per m idx f /\ f_xfit f = map Fin us /\
    forall p, (p < length idx)%nat -> value_at f (Fin (nth p us 0)) (entry1 (k_factor r) (nth p idx 0%nat)).
Proof. exact c94_pth_smallest. Qed.
Print Assumptions C94_order.
(* not only the factor: its error, the slope, the station mean and their errors are those of that number *)
Theorem C94_everything : forall det solve inv least_squares rng randn interp1d interp2d tbase c_from_sp sp_from_c cfg src pos d c flags nos v idx us (g : rng) r g',
  cf_breaks c = [] -> cf_calseries c = map Fin flags -> right_rows flags (cf_max_breaks c) -> src_no src = map Fin nos -> v <> 0 ->
  lists_series flags v idx -> NoDup (numbers_of nos idx) -> distinct_of (numbers_of nos idx) us ->
  piecewisefit det solve inv least_squares rng randn interp1d interp2d tbase c_from_sp sp_from_c cfg src pos d (Ok c) g = (Ok r, g') ->
  forall p, (p < length idx)%nat -> exists l per m f, float_coords interp2d tbase pos = Ok l /\
    fit_of det solve inv least_squares rng randn interp1d c_from_sp cfg src (Some l) d c per m idx f /\
    fit_saved f (Fin (nth p us 0)) r (nth p idx 0%nat).
Proof. exact c94_all. Qed.
Print Assumptions C94_everything.
Theorem C94_ascending : forall det solve inv least_squares rng randn interp1d interp2d tbase c_from_sp sp_from_c cfg src pos d c flags nos v idx (g : rng) r g',
  cf_breaks c = [] -> cf_calseries c = map Fin flags -> right_rows flags (cf_max_breaks c) -> src_no src = map Fin nos -> v <> 0 ->
  lists_series flags v idx -> idx <> [] -> StronglySorted Rlt (numbers_of nos idx) ->
  piecewisefit det solve inv least_squares rng randn interp1d interp2d tbase c_from_sp sp_from_c cfg src pos d (Ok c) g = (Ok r, g') ->
  exists l per m f, float_coords interp2d tbase pos = Ok l /\
    fit_of det solve inv least_squares rng randn interp1d c_from_sp cfg src (Some l) d c per m idx f /\
    forall j, In j idx -> value_at f (Fin (nth j nos 0)) (entry1 (k_factor r) j).
Proof. exact c94_own_number. Qed.
Print Assumptions C94_ascending.
Theorem C94_not_ascending : forall det solve inv least_squares rng randn interp1d interp2d tbase c_from_sp sp_from_c cfg src pos d c flags nos v idx (g : rng) r g',
  cf_breaks c = [] -> cf_calseries c = map Fin flags -> right_rows flags (cf_max_breaks c) -> src_no src = map Fin nos -> v <> 0 ->
  lists_series flags v idx -> NoDup (numbers_of nos idx) -> ~ StronglySorted Rlt (numbers_of nos idx) ->
  piecewisefit det solve inv least_squares rng randn interp1d interp2d tbase c_from_sp sp_from_c cfg src pos d (Ok c) g = (Ok r, g') ->
  exists l per m f, float_coords interp2d tbase pos = Ok l /\
    fit_of det solve inv least_squares rng randn interp1d c_from_sp cfg src (Some l) d c per m idx f /\
    exists j k, In j idx /\ In k idx /\ nth j nos 0 <> nth k nos 0 /\ value_at f (Fin (nth k nos 0)) (entry1 (k_factor r) j).
Proof. exact c94_foreign_number. Qed.
Print Assumptions C94_not_ascending.
(* runs with ascending and with descending numbers succeed *)
Example C94_witness :
  (exists r, cal_run cal_src cal_set cal_map = (Ok r, 0%nat) /\ k_factor r = [Some 3; Some 3; None; Some 3]%Z) /\
  exists r, cal_run (renumbered [4; 3; 2; 1]%Z) cal_set cal_map = (Ok r, 0%nat) /\ k_factor r = [Some 3; Some 3; None; Some 3]%Z.
Proof. split; [destruct cal_run_ok as (r & E & F & _); exists r; auto|exact cal_descending]. Qed.

(* ---- C95 ---- *)
Theorem C95_repeated_number : forall det solve inv least_squares rng randn interp1d interp2d tbase c_from_sp sp_from_c cfg src pos d c flags nos v idx (g : rng) r g' a b,
  cf_breaks c = [] -> cf_calseries c = map Fin flags -> right_rows flags (cf_max_breaks c) -> src_no src = map Fin nos -> v <> 0 ->
  lists_series flags v idx -> ~ NoDup (numbers_of nos idx) -> In a idx -> In b idx -> nth a nos 0 <> nth b nos 0 ->
  piecewisefit det solve inv least_squares rng randn interp1d interp2d tbase c_from_sp sp_from_c cfg src pos d (Ok c) g <> (Ok r, g').
Proof. exact c95_repeated_number. Qed.
Print Assumptions C95_repeated_number.
Theorem C95_single_profile : forall det solve inv least_squares rng randn interp1d interp2d tbase c_from_sp sp_from_c cfg src pos d c flags v k (g : rng) r g',
  c_from_sp NaN NaN (Fin 0) = NaN ->
  cf_breaks c = [] -> cf_calseries c = map Fin flags -> right_rows flags (cf_max_breaks c) -> v <> 0 -> lists_series flags v [k] ->
  piecewisefit det solve inv least_squares rng randn interp1d interp2d tbase c_from_sp sp_from_c cfg src pos d (Ok c) g <> (Ok r, g').
Proof. exact c95_single. Qed.
Print Assumptions C95_single_profile.
Example C95_witness : cal_run (renumbered [1; 1; 3; 4]%Z) cal_set cal_map = (Raise ValueError, 0%nat) /\
  cal_run cal_src (with_flags [1; 1; 2; 1]%Z [] one_row) cal_map = (Raise AttributeError, 0%nat).
Proof. exact (conj (proj1 cal_failures) (proj1 (proj2 cal_failures))). Qed.

(* ---- C96 ---- *)
Theorem C96_given_breaks : forall det solve inv least_squares rng randn interp1d interp2d tbase c_from_sp sp_from_c cfg src pos d c flags j0 (g : rng) r g',
  c_from_sp NaN NaN (Fin 0) = NaN ->
  cf_breaks c <> [] -> cf_calseries c = map Fin flags -> in_series flags j0 ->
  piecewisefit det solve inv least_squares rng randn interp1d interp2d tbase c_from_sp sp_from_c cfg src pos d (Ok c) g = (Ok r, g') ->
  g' = g /\ k_coef r = [] /\ forall j, missing r j.
Proof. exact c96_breaks. Qed.
Print Assumptions C96_given_breaks.
(* more breaks than allowed: the blank file; an allowed break: an exception *)
Example C96_witness :
  cal_run cal_src (with_flags [1; 1; 0; 1]%Z [[Some 2; Some 3]%Z] [[Some 1%Z]]) cal_map = (Ok (blank_calib cal_src), 0%nat) /\
  cal_run cal_src (with_flags [1; 1; 0; 1]%Z [[Some 2%Z]] [[Some 1%Z]]) cal_map = (Raise ValueError, 200%nat).
Proof. split; [vm_compute; reflexivity|exact (proj1 (proj2 (proj2 cal_failures)))]. Qed.

(* ---- C97 ---- *)
Theorem C97_files : forall T rng (fit : source T -> positions T -> Mapping.mapped T -> res (calfile T) -> rng -> res (calib T) * rng) p dir name fl g out fl' g',
  calc_piecewisefit fit p dir name fl g = (out, fl', g') ->
  (forall q, fl_source fl' q = fl_source fl q) /\ (forall q, fl_mapped fl' q = fl_mapped fl q) /\
  (forall q, fl_calseries fl' q = fl_calseries fl q) /\
  (forall q, q <> calib_path p dir name -> fl_calib fl' q = fl_calib fl q) /\
  (forall e, out = Raise e -> fl' = fl) /\
  (out = Ok tt -> exists s d c r h, fl_source fl (source_path p dir name) = Some s /\ fl_mapped fl (mapped_path p dir name) = Some d /\
     fl_calseries fl (calseries_path p dir name) = c /\ fit (fst s) (snd s) d (found c) g = (Ok r, h) /\
     fl_calib fl' (calib_path p dir name) = Some r).
Proof. exact (fun T rng => files_kept (T := T) rng). Qed.
Print Assumptions C97_files.
Theorem C97_missing_file : forall T rng (fit : source T -> positions T -> Mapping.mapped T -> res (calfile T) -> rng -> res (calib T) * rng) p dir name fl g,
  fl_source fl (source_path p dir name) = None \/
  (exists s, fl_source fl (source_path p dir name) = Some s) /\ fl_mapped fl (mapped_path p dir name) = None ->
  calc_piecewisefit fit p dir name fl g = (Raise FileNotFoundError, fl, g).
Proof. exact (fun T rng => files_missing (T := T) rng). Qed.
Print Assumptions C97_missing_file.
(* the settings are read where set_calseries writes them exactly if the two postfixes are equal *)
Theorem C97_settings_found : forall p dir name, calseries_path p dir name = set_calseries_path p dir name <-> cp_mapped_postfix p = cp_calib_postfix p.
Proof. exact calseries_found. Qed.
Print Assumptions C97_settings_found.
Theorem C97_settings_refuted : exists p, forall dir name, calseries_path p dir name <> set_calseries_path p dir name.
Proof.
  exact (ex_intro _ (mkCalPaths "" ".mat" "" "map_" ".mat" "" "cal_" "_cal.mat" "calseries_")
           (fun dir name E => eq_ind ".mat"%string (fun s => match s with String _ (String "m" _) => True | _ => False end) I "_cal.mat"%string
                                (proj1 (calseries_found (mkCalPaths "" ".mat" "" "map_" ".mat" "" "cal_" "_cal.mat" "calseries_") dir name) E))).
Qed.
Print Assumptions C97_settings_refuted.
(* the default postfixes *)
Example C97_witness : let p := mkCalPaths "s" ".mat" "m" "map_" ".mat" "c" "cal_" ".mat" "calseries_" in
  calseries_path p "" "3901960" = set_calseries_path p "" "3901960" /\ calib_path p "" "3901960" = "c//cal_3901960.mat"%string.
Proof. split; reflexivity. Qed.

(* ---- C98 ---- *)
Theorem C98_no_history : forall det solve inv least_squares rng randn interp1d interp2d tbase c_from_sp sp_from_c cfg src pos d c flags per (g : rng),
  selected_hist d = [] -> cf_percent c = Some [[per]] -> cf_breaks c = [] ->
  cf_calseries c = map Fin flags -> right_rows flags (cf_max_breaks c) -> (exists j, in_series flags j) ->
  piecewisefit det solve inv least_squares rng randn interp1d interp2d tbase c_from_sp sp_from_c cfg src pos d (Ok c) g = (Raise UnboundLocalError, g).
Proof. exact c98_no_history. Qed.
Print Assumptions C98_no_history.
Theorem C98_blank : forall det solve inv least_squares rng randn interp1d interp2d tbase c_from_sp sp_from_c cfg src pos d c flags per (g : rng),
  (selected_hist d = [] \/ exists l, float_coords interp2d tbase pos = Ok l) -> cf_percent c = Some [[per]] -> cf_breaks c = [] ->
  cf_calseries c = map Fin flags -> (forall j, ~ in_series flags j) \/ ~ right_rows flags (cf_max_breaks c) ->
  exists r, piecewisefit det solve inv least_squares rng randn interp1d interp2d tbase c_from_sp sp_from_c cfg src pos d (Ok c) g = (Ok r, g) /\
    (forall j, missing r j) /\ k_no r = src_no src /\ k_coef r = [] /\ k_breaks r = [].
Proof. exact c98_blank. Qed.
Print Assumptions C98_blank.
Theorem C98_no_percentage : forall T (HN : Num T) (HT : NumT T) det solve inv least_squares rng randn interp1d interp2d tbase c_from_sp sp_from_c cfg src pos d c (g : rng),
  (selected_hist d = [] \/ exists l, float_coords (T := T) interp2d tbase pos = Ok l) -> cf_percent c = None ->
  piecewisefit det solve inv least_squares rng randn interp1d interp2d tbase c_from_sp sp_from_c cfg src pos d (Ok c) g = (Raise KeyError, g).
Proof. exact (fun T HN HT => no_percent (T := T)). Qed.
Print Assumptions C98_no_percentage.
Example C98_witness : cal_run cal_src cal_set (mkMapped (la_ptmp cal_map) (la_mapped_sal cal_map) (la_map_sal_errors cal_map) (la_noise_sal cal_map) (la_signal_sal cal_map) [] [] [])
    = (Raise UnboundLocalError, 0%nat) /\
  cal_run cal_src (with_flags [1; 1; 2; 2]%Z [] (one_row ++ one_row ++ one_row)) cal_map = (Ok (blank_calib cal_src), 0%nat).
Proof. exact (proj2 (proj2 (proj2 cal_failures))). Qed.

(* ---- C99 ---- *)
Theorem C99_no_break_saved : forall det solve inv least_squares rng randn interp1d interp2d tbase c_from_sp sp_from_c cfg src pos d c flags us (g : rng) r g',
  cf_breaks c = [] -> cf_calseries c = map Fin flags -> NoDup us -> (forall v, In v us <-> In v flags /\ v <> 0) ->
  piecewisefit det solve inv least_squares rng randn interp1d interp2d tbase c_from_sp sp_from_c cfg src pos d (Ok c) g = (Ok r, g') ->
  k_breaks r = [] /\ (length (k_coef r) <= 2 * length us)%nat.
Proof. exact c99_no_break_saved. Qed.
Print Assumptions C99_no_break_saved.
Example C99_witness : exists r, cal_run cal_src cal_set cal_map = (Ok r, 0%nat) /\ k_breaks r = [] /\ cf_breaks cal_set = [].
Proof. destruct cal_run_ok as (r & E & _ & _ & _ & F). exists r. auto. Qed.
