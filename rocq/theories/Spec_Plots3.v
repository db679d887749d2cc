(* The plots of a dashboard and the data they are made of. *)
From Coq Require Import String ZArith List.
From Verif Require Import Num Np Finders MapProfile Mapping Config Calib Pyplot Plots.
Import ListNotations.

Section Eight.
  Context {T : Type} {NT : Num T}.
  Variable interp1d : list T -> list T -> T -> res T.
  Variable interp1d_nan : list T -> list T -> T -> T.
  Variable argsort : list T -> list nat.
  Variable show_bounds : T * T -> string.
  Variables (src : source T) (d : mapped T) (k : calib T) (levels : nat) (p : @plot_paths T) (name : string).
  (* places of the historical profiles, longitudes from -180 to 180 *)
  Definition hist_places : list (T * T) := map (fun h => (east_west (fst (fst h)), snd (fst h))) (selected_hist d).
  (* the eight plots, from the rows of the float, the windows and the levels found; the title tells the
     salinities *)
  Definition eight_plots (floats : list (T * T * T)) (theta_lt theta_gt pres_lt pres_gt : option T) (percent : T) (th : @thetas T) : list (prog (item T)) :=
    let theta_sal sal title := theta_sal_plot sal (src_ptmp src) (m_cols (la_mapped_sal d)) (m_cols (la_ptmp d)) (m_cols (la_map_sal_errors d)) (th_index th) (src_no src) p name title in
    [pseq (trajectory_plot floats hist_places p name) (pdo [Show]);
     theta_sal (src_sal src) "uncalibrated"%string;
     sal_anom_plot interp1d_nan argsort show_bounds (src_sal src) (src_ptmp src) (src_no src) p name "uncalibrated";
     cal_sal_curve_plot (src_sal src) (k_sal k) (k_sal_err k) (k_sta_sal k) (k_sta_mean k) (k_factor k) (k_factor_err k) (src_no src) p name;
     theta_sal (k_sal k) "calibrated"%string;
     sal_var_plot interp1d levels (src_levels src) (length (src_sal src)) (of_cols (m_cols (la_ptmp d))) theta_lt theta_gt pres_lt pres_gt percent
       (mkSeven (of_cols (src_pres src)) (of_cols (src_sal src)) (of_cols (src_ptmp src)) (of_cols (m_cols (la_mapped_sal d)))
                (of_cols (m_cols (la_map_sal_errors d))) (of_cols (k_sal k)) (of_cols (k_sal_err k))) (src_no src) p name;
     sal_anom_plot interp1d_nan argsort show_bounds (k_sal k) (src_ptmp src) (src_no src) p name "calibrated";
     t_s_profile_plot (src_sal src) (src_ptmp src) (src_pres src) (var_sal_theta th) (theta_levels th) (t_levels th) (p_levels th) p name].
  (* the names of the files of each of the eight *)
  Definition file_of (i : nat) (f : string) : Prop :=
    match i with
    | 0 => f = plot_file p name "_trajectory"
    | 1 => f = plot_file p name "_uncalibrated_theta_sal"
    | 2 => exists b, f = plot_file p name ("_uncalibrated_salinity_anomaly_" ++ show_bounds b)
    | 3 => f = plot_file p name "_salinity_curve"
    | 4 => f = plot_file p name "_calibrated_theta_sal"
    | 5 => exists n, f = plot_file p name ("_salinity_variance_" ++ n)
    | 6 => exists b, f = plot_file p name ("_calibrated_salinity_anomaly_" ++ show_bounds b)
    | 7 => f = plot_file p name "_salinity_profile"
    | _ => False
    end.
  (* the windows and levels of a run *)
  Definition run_levels (pos : positions T) (c : calfile T) floats theta_lt theta_gt pres_lt pres_gt percent th mats : Prop :=
    float_rows (src_no src) (concat (ps_lat pos)) (map east_west (concat (ps_long pos))) = Ok floats
    /\ find_10thetas interp1d (src_levels src) (length (src_sal src)) (of_cols (src_sal src)) (of_cols (src_ptmp src)) (of_cols (src_pres src))
         (of_cols (m_cols (la_ptmp d))) theta_lt theta_gt pres_lt pres_gt percent = Ok (th, mats)
    /\ window_bound (cf_theta_lt c) = Ok theta_lt /\ window_bound (cf_theta_gt c) = Ok theta_gt
    /\ window_bound (cf_pres_lt c) = Ok pres_lt /\ window_bound (cf_pres_gt c) = Ok pres_gt.
End Eight.
