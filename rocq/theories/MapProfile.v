(* Model of the calculation of one profile in update_salinity_mapping, pyowc/calibration.py 157-330,
   with get_float_data and process_profiles_grid_variables of pyowc/helper.py. *)
From Coq Require Import String Ascii.
From Coq Require Import ZArith List Bool Lia.
From Verif Require Import Num Np Utilities Finders Stats Wrangling Topo Fetchers Saf Helper.
Import ListNotations.
Local Open Scope num_scope.

Section Records.
  Context {T : Type}.
(* what one level of a profile contributes to the mapped data, and the points used for it *)
Record level_out : Type := mkLevelOut {
  lo_ptmp : T; lo_sal : T; lo_err : T; lo_noise : T; lo_signal : T; lo_points : list (T * T) }.

(* the float source file: one entry, or one column of levels, per profile *)
Record source : Type := mkSource {
  src_no : list T; src_lat : list T; src_long : list T; src_dates : list T;
  src_sal : list (list T); src_tmp : list (list T); src_ptmp : list (list T); src_pres : list (list T);
  src_levels : nat }.

Record float_data : Type := mkFloatData {
  fd_lat : T; fd_long : T; fd_date : T; fd_sal : list T; fd_tmp : list T; fd_ptmp : list T; fd_pres : list T }.

(* the scales and switches, calibration.py 69-82 *)
Record map_config : Type := mkMapConfig {
  mc_boxes : list (list T); mc_max_casts : Z; mc_use_pv : Z; mc_use_saf : Z;
  mc_long_large : T; mc_long_small : T; mc_lat_large : T; mc_lat_small : T;
  mc_phi_large : T; mc_phi_small : T; mc_age_large : T; mc_age_small : T;
  mc_p_delta : T; mc_p_exclude : T; mc_saf : saf_profile T; mc_db : db_config T }.
End Records.
Arguments level_out T : clear implicits.
Arguments source T : clear implicits.
Arguments float_data T : clear implicits.
Arguments map_config T : clear implicits.

(* helper.py 121-143, get_float_data: IndexError past the last profile *)
Definition get_float_data {T} (s : source T) (i : nat) : res (float_data T) :=
  match nth_error (src_lat s) i, nth_error (src_long s) i, nth_error (src_dates s) i, nth_error (src_sal s) i,
        nth_error (src_tmp s) i, nth_error (src_ptmp s) i, nth_error (src_pres s) i with
  | Some la, Some lo, Some da, Some sa, Some tm, Some pt, Some pr => Ok (mkFloatData la lo da sa tm pt pr)
  | _, _, _, _, _, _, _ => Raise IndexError
  end.

Section MapLevel.
  Context {T : Type} `{Num T} `{NumT T}.
  Variable inv : nat -> (nat -> nat -> T) -> res (nat -> nat -> T).      (* np.linalg.inv *)

  Definition hist_obs (h : hist T) : list (obs T) :=
    map (fun q => mkObs (fst (fst q)) (snd (fst q)) (snd q)) (combine (combine (h_sal h) (h_lat h)) (h_long h)).
  Definition hist_points (h : hist T) : list (point T) :=
    map (fun q => mkPoint (fst (fst (fst q))) (snd (fst (fst q))) (snd (fst q)) (snd q))
        (combine (combine (combine (h_lat h) (h_long h)) (h_dates h)) (h_z h)).

  (* calibration.py 258-315: mapping one level from the historical points h.  The arguments
     long_large, lat_large (long_small, lat_small) are passed in the positions of the parameters
     lat, long of map_data_grid.  float_ptmp is the temperature of the level. *)
  Definition map_level (cfg : map_config T) (g : point T) (float_ptmp : T) (h : hist T) : res (option (level_out T)) :=
    if Nat.ltb 5 (length (h_sal h)) then
      let* outlier := outliers (h_sal h) in
      let h := remove_statical_outliers outlier h in
      let* noise_sal := noise_variance (hist_obs h) in
      let* signal_sal := signal_variance (h_sal h) in
      let* (mv0, mv1, mv2, _) :=
        map_data_grid inv (h_sal h) [g] (hist_points h) (mc_long_large cfg) (mc_lat_large cfg) (mc_age_large cfg)
          signal_sal noise_sal (mc_phi_large cfg) (mc_use_pv cfg) in
      let sal_residual := map (fun q => fst q - snd q) (combine (h_sal h) mv2) in
      let* sal_signal_residual := signal_variance sal_residual in
      let* (mr0, mr1, _, _) :=
        map_data_grid inv sal_residual [g] (hist_points h) (mc_long_small cfg) (mc_lat_small cfg) (mc_age_small cfg)
          sal_signal_residual noise_sal (mc_phi_small cfg) (mc_use_pv cfg) in
      Ok (Some (mkLevelOut float_ptmp (mv0 + mr0) (nsqrt (mv1 * mv1 + mr1 * mr1)) noise_sal signal_sal
                           (combine (h_long h) (h_lat h))))
    else Ok None.
End MapLevel.

Section MapProfile.
  Context {T : Type} `{Num T} `{NumT T} {rng : Type}.
  (* the generator, np.random; the default argsort; np.linalg.inv; np.interp; gsw *)
  Variable seed : Z -> rng.
  Variable rand : rng -> nat -> list T * rng.
  Variable g0 : rng.
  Variable unstable_argsort : list T -> list nat.
  Variable inv : nat -> (nat -> nat -> T) -> res (nat -> nat -> T).
  Variable np_interp : T -> list T -> list T -> T.
  Variable sa_from_sp : T -> T -> T -> T -> T.
  Variable ct_from_pt : T -> T -> T.
  Variable t_from_ct : T -> T -> T -> T.
  (* scipy.interpolate.interp2d(x, y, z, kind='linear')(a, b) *)
  Variable interp2d : list T -> list T -> list (list Z) -> T -> T -> res T.
  (* the files *)
  Variable tbase : binfile.
  Variable read_mat : string -> res (ref_data T).
  Variable date_str : T -> list ascii.
  Variable cfg : map_config T.
  Variable float_name : string.

  (* the interpolated elevations of get_topo_grid *)
  Definition elevation (lo1 lo2 la1 la2 : T) (places : list (T * T)) : res (list T) :=
    let* (elev, x, y) := get_topo_grid tbase lo1 lo2 la1 la2 in
    mapM (fun p => interp2d (hd [] x) (map (hd nnan) y) elev (fst p) (snd p)) places.

  Definition amin (l : list T) : T := if existsb nisnan l then nnan else np_min l.
  Definition amax (l : list T) : T := if existsb nisnan l then nnan else np_max l.
  Definition tbase_long (x : T) : T := if x >? nofZ 180 then x - nofZ 360 else x.

  (* helper.py 182-222, process_profiles_grid_variables: grid_z *)
  Definition grid_depths (grid_long grid_lat : list T) : res (list T) :=
    let grid_long_tbase := map tbase_long grid_long in
    let* z := elevation (amin grid_long_tbase - 1) (amax grid_long_tbase + 1) (amin grid_lat - 1) (amax grid_lat + 1)
                        (combine grid_long_tbase grid_lat) in
    Ok (map (nmul (nofZ (-1))) z).

  (* calibration.py 199-203 and 228-231: the float longitude beyond 360 like the casts' *)
  Definition wrap_float (grid_long : list T) (float_long : T) : T :=
    if existsb (fun x => x >? nofZ 360) grid_long && (0 <=? float_long) && (float_long <=? nofZ 20)
    then float_long + nofZ 360 else float_long.

  (* calibration.py 160-162: np.argwhere(...).any() is true when an index other than 0 is found *)
  Definition usable (fd : float_data T) : bool :=
    negb (nisnan (fd_long fd)) && negb (nisnan (fd_lat fd)) &&
    existsb (fun i => negb (Nat.eqb i 0)) (argwhere (fun p => negb (nisnan p)) (fd_pres fd)).

  Definition to_array2 (cols : list (list T)) : array2 T :=
    mkArray2 T (length (hd [] cols)) (length cols) (fun i j => nth i (nth j cols []) nnan).

  (* calibration.py 184-226: the historical casts used for the profile *)
  Definition best_history (fd : float_data T) (float_z : T) : res (grid T) :=
    let* wmo_numbers := find_25boxes (fd_long fd) (fd_lat fd) (mc_boxes cfg) in
    let* (grid_lat, grid_long, grid_dates) := get_region_hist_locations read_mat date_str wmo_numbers float_name (mc_db cfg) in
    let* grid_z := grid_depths grid_long grid_lat in
    let casts := map (fun q => mkCast (fst (fst (fst q))) (snd (fst (fst q))) (snd (fst q)) (snd q))
                     (combine (combine (combine grid_lat grid_long) grid_dates) grid_z) in
    let* index := fst (find_besthist seed rand unstable_argsort (fd_lat fd) (wrap_float grid_long (fd_long fd)) (fd_date fd) float_z
                         (mc_lat_large cfg) (mc_lat_small cfg) (mc_long_large cfg) (mc_long_small cfg)
                         (mc_phi_large cfg) (mc_phi_small cfg) (mc_age_large cfg) (mc_age_small cfg)
                         (mc_use_pv cfg) casts (mc_max_casts cfg) g0) in
    let* best := get_region_data read_mat date_str wmo_numbers float_name (mc_db cfg) index (fd_pres fd) in
    let* best_z := index_array nnan grid_z index in
    let g := mkGrid (Fetchers.o_sal best) (o_ptmp best) (o_pres best) (Fetchers.o_lat best) (Fetchers.o_long best)
                    (o_dates best) best_z in
    if Z.eqb (mc_use_saf cfg) 1 then
      let* g2 := frontal_constraint_saf np_interp sa_from_sp ct_from_pt t_from_ct (mc_saf cfg) g
                   (mkFloat (fd_lat fd) (fd_pres fd) (fd_tmp fd) (fd_sal fd)) in
      (* grid_sal[0]: the first row *)
      if Nat.eqb (length (hd [] (gr_sal g))) 0 then Raise IndexError
      else Ok (if Nat.ltb 5 (length (gr_sal g2)) then g2 else g)
    else Ok g.

  (* calibration.py 157-330: the levels of profile i.  None stands for a level without mapping.  The
     three float arrays have one length. *)
  Definition profile_levels (s : source T) (i : nat) : res (nat -> res (option (level_out T))) :=
    let* fd := get_float_data s i in
    if usable fd then
      let float_long_tbase := tbase_long (fd_long fd) in
      let* elev := elevation (float_long_tbase - 1) (float_long_tbase + 1) (fd_lat fd - 1) (fd_lat fd + 1)
                             [(float_long_tbase, fd_lat fd)] in
      let float_z := nopp (hd nnan elev) in
      let* g := best_history fd float_z in
      let float_long := wrap_float (gr_long g) (fd_long fd) in
      let* interp := interp_climatology (to_array2 (gr_sal g)) (to_array2 (gr_ptmp g)) (to_array2 (gr_pres g))
                       (combine (combine (fd_sal fd) (fd_ptmp fd)) (fd_pres fd)) in
      Ok (fun n =>
        match nth_error (fd_sal fd) n, nth_error (fd_pres fd) n with
        | Some sal, Some pres =>
            if negb (nisnan sal) && (mc_p_exclude cfg <=? pres) then
              let* h := process_profile_hist_variables (gr_long g) (gr_lat g) (gr_dates g) (gr_z g) pres
                          (nth n interp []) (mc_p_delta cfg) in
              map_level inv cfg (mkPoint (fd_lat fd) float_long (fd_date fd) float_z) (nth n (fd_ptmp fd) nnan) h
            else Ok None
        | _, _ => Raise IndexError
        end)
    else Ok (fun _ => Ok None).
End MapProfile.
