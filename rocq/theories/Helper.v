(* Model of pyowc/helper.py 121-371: the parts of update_salinity_mapping that were moved there.
   load_varibales_from_file (15-118) and sort_numpy_array are in Mapping.v, with the data they act on. *)
From Coq Require Import ZArith List Bool Lia.
From Verif Require Import Num Np Stats.
Import ListNotations.
Local Open Scope num_scope.

Section Helper.
  Context {T : Type} `{Num T}.

  (* the dictionary of the historical points used at a level: one entry per point.  In the code the
     arrays are columns (or, after the removal of outliers, hist_sal and hist_pres are 1-d). *)
  Record hist : Type := mkHist {
    h_sal : list T; h_pres : list T; h_long : list T; h_lat : list T; h_dates : list T; h_z : list T }.

  (* a[idx] for an index array: IndexError past the end *)
  Definition index_array {A} (d : A) (l : list A) (idx : list nat) : res (list A) :=
    if forallb (fun i => Nat.ltb i (length l)) idx then Ok (take d l idx) else Raise IndexError.

  (* helper.py 226-259, process_profile_hist_variables.  level is row n_level of hist_interp_sal and
     hist_interp_pres, one pair per historical cast. *)
  Definition process_profile_hist_variables (grid_long grid_lat grid_dates grid_z : list T)
      (float_pres_n : T) (level : list (T * T)) (map_p_delta : T) : res hist :=
    let max_hist_casts := argwhere (fun q => negb (nisnan (fst q))) level in
    let hist_sal := map fst (take (nnan, nnan) level max_hist_casts) in
    let hist_pres := map snd (take (nnan, nnan) level max_hist_casts) in
    let* hist_long := index_array nnan grid_long max_hist_casts in
    let* hist_lat := index_array nnan grid_lat max_hist_casts in
    let* hist_dates := index_array nnan grid_dates max_hist_casts in
    let* hist_z := index_array nnan grid_z max_hist_casts in
    let delta_index := argwhere (fun p => nabs (p - float_pres_n) <? map_p_delta) hist_pres in
    Ok (mkHist (take nnan hist_sal delta_index) (take nnan hist_pres delta_index)
               (take nnan hist_long delta_index) (take nnan hist_lat delta_index)
               (take nnan hist_dates delta_index) (take nnan hist_z delta_index)).

  (* helper.py 262-282, remove_statical_outliers.  The indices come from an array of the same length. *)
  Definition remove_statical_outliers (outlier : list nat) (h : hist) : hist :=
    match outlier with
    | [] => h
    | _ => mkHist (np_delete (h_sal h) outlier) (np_delete (h_pres h) outlier) (np_delete (h_long h) outlier)
                  (np_delete (h_lat h) outlier) (np_delete (h_dates h) outlier) (np_delete (h_z h) outlier)
    end.

  (* calibration.py 262-266: the outliers *)
  Definition outliers (sal : list T) : res (list nat) :=
    let mean_sal := mean sal in
    let* signal_sal := signal_variance sal in
    Ok (argwhere (fun x => nabs (x - mean_sal) / nsqrt signal_sal >? nofZ 3) sal).

  (* a recorded point: longitude, latitude, number of the profile *)
  Definition record : Type := T * T * T.
  (* one arcminute: 1 / 60 *)
  Definition arcminute : T := nq 1 60.
  Definition close (x y : T) (r : record) : bool :=
    (nabs (fst (fst r) - x) <? arcminute) && (nabs (snd (fst r) - y) <? arcminute).
  Definition add_point (no : T) (selected : list record) (xy : T * T) : list record :=
    if existsb (close (fst xy) (snd xy)) selected then selected
    else selected ++ [(fst xy, snd xy, no)].
  (* helper.py 334-371, selected_historical_points: only the longitudes and latitudes are used.
     d_1 is non-empty iff some record is close in both coordinates. *)
  Definition selected_historical_points (selected : list record) (long_lat : list (T * T)) (no : T)
      : res (list record) :=
    let* start :=
      match selected, long_lat with
      | [], [] => Raise IndexError
      | [], xy :: _ => Ok [(fst xy, snd xy, no)]
      | _, _ => Ok selected
      end in
    Ok (fold_left (add_point no) long_lat start).
End Helper.
Arguments hist T : clear implicits.
Arguments record T : clear implicits.
