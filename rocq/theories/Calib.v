(* Model of calc_piecewisefit, pyowc/calibration.py 378-743 *)
From Coq Require Import String Ascii.
From Coq Require Import ZArith List Bool Lia.
From Verif Require Import Num Np Utilities Finders Stats FitCond Topo Helper MapProfile Mapping Config.
Import ListNotations.
Local Open Scope num_scope.

Section Arrays.
  Context {A : Type}.
  (* a[idx] = vals for distinct idx *)
  Definition scatter (idx : list nat) (vals : list A) (l : list A) : list A :=
    fold_left (fun l iv => set_nth (fst iv) (snd iv) l) (combine idx vals) l.
  (* with numpy's rule for the lengths *)
  Definition put (idx : list nat) (vals : list A) (l : list A) : res (list A) :=
    if negb (forallb (fun i => Nat.ltb i (length l)) idx) then Raise IndexError
    else if Nat.eqb (length vals) (length idx) then Ok (scatter idx vals l)
    else match vals with
         | [v] => Ok (scatter idx (map (fun _ => v) idx) l)
         | _ => Raise ValueError
         end.
End Arrays.
Definition map2 {A B C} (f : A -> B -> C) (l : list A) (m : list B) : list C := map (fun q => f (fst q) (snd q)) (combine l m).

Section Records.
  Context {T : Type}.
  (* the content of a cal_ file: one number, or one column of levels, per profile *)
  Record calib : Type := mkCalib {
    k_sal : list (list T); k_sal_err : list (list T); k_factor : list T; k_factor_err : list T;
    k_cond : list (list T); k_cond_err : list (list T); k_deriv : list T; k_deriv_err : list T;
    k_sta_mean : list T; k_sta_rms : list T; k_sta_sal : list (list T); k_sta_sal_err : list (list T);
    k_no : list T; k_coef : list T; k_breaks : list (list T) }.
  (* the two-dimensional positions of the source file *)
  Record positions : Type := mkPositions { ps_long : list (list T); ps_lat : list (list T) }.
End Records.
Arguments calib T : clear implicits.
Arguments positions T : clear implicits.

Section Calib.
  Context {T : Type} `{Num T} `{NumT T}.
  Notation mat := (nat -> nat -> T).
  (* as for fit_cond *)
  Variable det : nat -> mat -> T.
  Variable solve : nat -> nat -> mat -> mat -> res mat.
  Variable inv : nat -> mat -> res mat.
  Variable least_squares : (list T -> res (list T)) -> list T -> res (list (list T) * list T).
  Variable rng : Type.
  Variable randn : nat -> rng -> list T * rng.
  (* as for find_10thetas and the elevations *)
  Variable interp1d : list T -> list T -> T -> res T.
  Variable interp2d : list T -> list T -> list (list Z) -> T -> T -> res T.
  Variable tbase : binfile.
  (* gsw.conversions.C_from_SP and SP_from_C *)
  Variable c_from_sp : T -> T -> T -> T.
  Variable sp_from_c : T -> T -> T -> T.

  (* calibration.py 423-448: the positions with the depth of the sea floor, in the order longitude,
     latitude, depth.  Positions stored as a column are flattened, and then long_1[0] is a number
     (AttributeError), lat[0][i] is not indexable (IndexError). *)
  Definition float_coords (p : positions T) : res (list (coord T)) :=
    let long := concat (ps_long p) in
    let lat := concat (ps_lat p) in
    let long_1 := if existsb (fun x => x >? nofZ 180) long then map (fun x => x - nofZ 360) long else long in
    if Nat.eqb (length long) 0 || Nat.eqb (length lat) 0 then Raise ValueError        (* nanmin *)
    else
      let* (elev, x, y) := get_topo_grid tbase (nanmin long_1 - 1) (nanmax long_1 + 1) (nanmin lat - 1) (nanmax lat + 1) in
      if Nat.ltb 1 (length (ps_long p)) then Raise AttributeError
      else if Nat.ltb 1 (length (ps_lat p)) then Raise IndexError
      else
        let* z := mapM (fun i => match nth_error lat i with
                                 | Some la => interp2d (hd [] x) (map (hd nnan) y) elev (nth i long_1 nnan) la
                                 | None => Raise IndexError
                                 end) (seq 0 (length long_1)) in
        if Nat.eqb (length lat) (length long) then                                     (* np.column_stack *)
          Ok (map (fun q => mkCoord (fst (fst q)) (snd (fst q)) (nopp (snd q))) (combine (combine long lat) z))
        else Raise ValueError.

  (* calibration.py 484-491: the flags of the series *)
  Definition series_flags (calseries : list T) : list T := filter (fun v => negb (v =? 0)) (np_unique calseries).

  (* calibration.py 492-508: one row for every series, and whether the number of rows is right.  A wrong
     number of rows for a single series is only reported. *)
  Definition spread_max (n_seq : nat) (max_breaks : list (list T)) : list (list T) * bool :=
    if Nat.ltb 1 n_seq then
      match max_breaks with
      | [row] => (repeat (map (fun m => 1 * m) row) n_seq, true)
      | _ => (max_breaks, Nat.eqb (length max_breaks) n_seq)
      end
    else (max_breaks, true).

  Definition finite_breaks (row : list T) : list T := filter nisfin row.

  (* calibration.py 510-534.  The truth value of a comparison with an array of several elements is a
     ValueError, with an array without elements false. *)
  Definition breaks_in_range (breaks max_breaks : list (list T)) (i : nat) : res bool :=
    match nth_error breaks i, nth_error max_breaks i with
    | Some row, Some mx =>
        let nb := nofZ (Z.of_nat (length (finite_breaks row))) in
        match mx with
        | [] => Ok true
        | [m] => Ok (negb (m <? nb))
        | _ => Raise ValueError
        end
    | _, _ => Raise IndexError
    end.
  Definition check_breaks (n_seq : nat) (breaks max_breaks : list (list T)) : res bool :=
    match breaks with
    | [] => Ok true
    | _ => let* ok := mapM (breaks_in_range breaks max_breaks) (seq 0 n_seq) in
           Ok (Nat.eqb (length breaks) n_seq && forallb (fun b => b) ok)
    end.

  (* a window bound as find_10thetas gets it.  Simplification: a row of several bounds, which numpy
     would match with the profiles when their numbers agree, raises. *)
  Definition window_bound (b : list (list T)) : res (option T) :=
    match b with [] => Ok None | [[x]] => Ok (Some x) | _ => Raise ValueError end.

  Definition of_cols (cols : list (list T)) : mat := fun i j => nth i (nth j cols []) nnan.

  (* calibration.py 598-611: the values at the valid levels, moved to the top of the ten rows.  The
     conversion of NaN to an integer gives a negative number (x86). *)
  Definition ten_rows (index : list nat) (column : list T) : list T :=
    map (fun i => nth i column nnan) index ++ repeat nnan (10 - length index).
  Definition valid_levels (th : @thetas T) (ipr : nat) : list nat :=
    flat_map (fun row => match nth ipr row None with Some i => [i] | None => [] end) (th_index th).

  (* what the fit of one series is given *)
  Record fit_input : Type := mkFitInput {
    fi_x : list T; fi_y : list T; fi_err : list T; fi_cov : mat }.
  (* the columns of one series and the levels chosen *)
  Record series_data : Type := mkSeriesData {
    sd_coord : list (coord T); sd_sal : list (list T); sd_ptmp : list (list T); sd_mapped_sal : list (list T);
    sd_mapsalerrors : list (list T); sd_no : list T; sd_thetas : @thetas T }.

  (* calibration.py 564-596.  Simplification: the arrays of the source and of the mapped file have
     the same number of rows.  x_in[:, calindex] (632) cannot fail after the others. *)
  Definition select_series (src : source T) (coords : option (list (coord T))) (d : mapped T)
      (c : calfile T) (percent : T) (calindex : list nat) : res series_data :=
    let* coords := match coords with Some l => Ok l | None => Raise UnboundLocalError end in
    let* coord := index_array (mkCoord nnan nnan nnan) coords calindex in
    let* sal := index_array [] (src_sal src) calindex in
    let* ptmp := index_array [] (src_ptmp src) calindex in
    let* pres := index_array [] (src_pres src) calindex in
    let* mapped_ptmp := index_array [] (m_cols (la_ptmp d)) calindex in
    let* mapped_sal := index_array [] (m_cols (la_mapped_sal d)) calindex in
    let* mapsalerrors := index_array [] (m_cols (la_map_sal_errors d)) calindex in
    let* theta_lt := window_bound (cf_theta_lt c) in
    let* theta_gt := window_bound (cf_theta_gt c) in
    let* pres_lt := window_bound (cf_pres_lt c) in
    let* pres_gt := window_bound (cf_pres_gt c) in
    let* (th, _) := find_10thetas interp1d (src_levels src) (length calindex) (of_cols sal) (of_cols ptmp) (of_cols pres)
                      (of_cols mapped_ptmp) theta_lt theta_gt pres_lt pres_gt percent in
    let* no := index_array nnan (src_no src) calindex in
    Ok (mkSeriesData coord sal ptmp mapped_sal mapsalerrors no th).

  (* calibration.py 602-638 *)
  Definition ten (sd : series_data) (cols : list (list T)) : list (list T) :=
    map (fun ipr => ten_rows (valid_levels (sd_thetas sd) ipr) (nth ipr cols [])) (seq 0 (length (sd_no sd))).
  Definition build_input (cfg : cov_config T) (sd : series_data) : res fit_input :=
    let ten_sal := concat (ten sd (sd_sal sd)) in
    let ten_ptmp := concat (ten sd (sd_ptmp sd)) in
    let ten_mapped_sal := concat (ten sd (sd_mapped_sal sd)) in
    let ten_mapsalerrors := concat (ten sd (sd_mapsalerrors sd)) in
    let icond := map2 (fun s t => c_from_sp s t 0) ten_sal ten_ptmp in
    let mapped_cond := map2 (fun s t => c_from_sp s t 0) ten_mapped_sal ten_ptmp in
    let mapped_cond1 := map2 (fun s t => c_from_sp s t 0) (map2 (fun s e => s + e / nofZ 100) ten_mapped_sal ten_mapsalerrors) ten_ptmp in
    let mapconderrors := map2 (fun a b => nofZ 100 * nabs (a - b)) mapped_cond mapped_cond1 in
    let* cov := build_cov 10 (length (sd_no sd)) (of_cols (ten sd (sd_ptmp sd))) (sd_coord sd) cfg in
    Ok (mkFitInput (flat_map (fun n => repeat n 10) (sd_no sd)) (map2 ndiv mapped_cond icond) (map2 ndiv mapconderrors icond) cov).

  (* calibration.py 695-715 for one profile with its factor, error, mean and rms.  The product with
     the column of ones repeats the row of factors. *)
  Definition cond_column (sal ptmp : list T) : list T := map2 (fun s t => c_from_sp s t 0) sal ptmp.
  Definition cal_cond_column (f : T) (sal ptmp : list T) : list T := map (fun c => f * c) (cond_column sal ptmp).
  Definition to_sal (cond ptmp : list T) : list T := map2 (fun c t => sp_from_c c t 0) cond ptmp.
  Definition cal_sal_column (f : T) (sal ptmp : list T) : list T := to_sal (cal_cond_column f sal ptmp) ptmp.
  Definition sal_err_column (f e : T) (sal ptmp : list T) : list T :=
    map2 (fun a b => nabs (a - b)) (cal_sal_column f sal ptmp)
         (to_sal (map2 nadd (cal_cond_column f sal ptmp) (cal_cond_column e sal ptmp)) ptmp).

  Definition get (l : list T) (i : nat) : T := nth i l nnan.

  (* calibration.py 694-721: the columns calindex of the results, after the fit *)
  Definition apply_fit (src : source T) (calindex : list nat) (f_coef f_breaks : list T) (r : calib T) : calib T :=
    let cols (f : nat -> list T) (l : list (list T)) := scatter calindex (map f calindex) l in
    let sal j := nth j (src_sal src) [] in
    let ptmp j := nth j (src_ptmp src) [] in
    mkCalib
      (cols (fun j => cal_sal_column (get (k_factor r) j) (sal j) (ptmp j)) (k_sal r))
      (cols (fun j => sal_err_column (get (k_factor r) j) (get (k_factor_err r) j) (sal j) (ptmp j)) (k_sal_err r))
      (k_factor r) (k_factor_err r)
      (cols (fun j => cal_cond_column (get (k_factor r) j) (sal j) (ptmp j)) (k_cond r))
      (cols (fun j => cal_cond_column (get (k_factor_err r) j) (sal j) (ptmp j)) (k_cond_err r))
      (k_deriv r) (k_deriv_err r) (k_sta_mean r) (k_sta_rms r)
      (cols (fun j => cal_sal_column (get (k_sta_mean r) j) (sal j) (ptmp j)) (k_sta_sal r))
      (cols (fun j => sal_err_column (get (k_sta_mean r) j) (get (k_sta_rms r) j) (sal j) (ptmp j)) (k_sta_sal_err r))
      (k_no r) (k_coef r ++ f_coef) (match f_breaks with [] => k_breaks r | _ => k_breaks r ++ [f_breaks] end).

  Notation fit_cond := (fit_cond det solve inv least_squares rng randn).

  (* calibration.py 641-654: no break points are given.  The NaN returned without valid data has no
     flatten. *)
  Definition record_fit (calindex : list nat) (out : @outcome T) (r : calib T) : res (calib T * fit) :=
    match out with
    | NoData _ => let* _ := put calindex [nnan] (k_factor r) in Raise AttributeError
    | Fitted f =>
        let* factor := put calindex (f_condslope f) (k_factor r) in
        let* factor_err := put calindex (f_condslope_err f) (k_factor_err r) in
        let* deriv := put calindex (f_time_deriv f) (k_deriv r) in
        let* deriv_err := put calindex (f_time_deriv_err f) (k_deriv_err r) in
        let* sta_mean := put calindex (f_sta_mean f) (k_sta_mean r) in
        let* sta_rms := put calindex (f_sta_rms f) (k_sta_rms r) in
        Ok (mkCalib (k_sal r) (k_sal_err r) factor factor_err (k_cond r) (k_cond_err r) deriv deriv_err sta_mean sta_rms
                    (k_sta_sal r) (k_sta_sal_err r) (k_no r) (k_coef r) (k_breaks r), f)
    end.

  (* calibration.py 656-690: break points are given.  time_deriv and time_deriv_err have one row, and
     the profile indices are used as row indices; row 0 is overwritten as a whole. *)
  Definition put_row (calindex : list nat) (vals : list T) (l : list T) : res (list T) :=
    if negb (forallb (fun i => Nat.eqb i 0) calindex) then Raise IndexError
    else match vals with
         | [v] => Ok (map (fun _ => v) l)
         | _ => Raise ValueError
         end.
  Definition record_fit_breaks (calindex : list nat) (out : @outcome T) (r : calib T) : res (calib T * fit) :=
    match out with
    | NoData _ =>
        let* _ := put calindex [nnan] (k_factor r) in
        let* _ := put_row calindex [nnan] (k_deriv r) in
        Raise TypeError
    | Fitted f =>
        let* factor := put calindex (f_condslope f) (k_factor r) in
        let* factor_err := put calindex (f_condslope_err f) (k_factor_err r) in
        let* deriv := put_row calindex (f_time_deriv f) (k_deriv r) in
        let* deriv_err := put_row calindex (f_time_deriv_err f) (k_deriv_err r) in
        let* sta_mean := put calindex (f_sta_mean f) (k_sta_mean r) in
        let* sta_rms := put calindex (f_sta_rms f) (k_sta_rms r) in
        Ok (mkCalib (k_sal r) (k_sal_err r) factor factor_err (k_cond r) (k_cond_err r) deriv deriv_err sta_mean sta_rms
                    (k_sta_sal r) (k_sta_sal_err r) (k_no r) (k_coef r) (k_breaks r), f)
    end.

  (* max_breaks[i][0], and the truth value of max_breaks[i] *)
  Definition max_of (max_breaks : list (list T)) (i : nat) : res T :=
    match nth_error max_breaks i with Some (m :: _) => Ok m | _ => Raise IndexError end.
  Definition max_truth (max_breaks : list (list T)) (i : nat) : res bool :=
    match nth_error max_breaks i with
    | Some [] => Ok false
    | Some [m] => Ok (negb (m =? 0))
    | Some _ => Raise ValueError
    | None => Raise IndexError
    end.

  (* calibration.py 640-690: the fit and where its results go.  np.argwhere makes breaks_in a column,
     with which brk_pt_fit raises ValueError (np.concatenate): no fit with given breaks is returned.
     Simplification: random numbers are drawn before this exception. *)
  Definition fit_series (i : nat) (breaks max_breaks : list (list T)) (calindex : list nat) (fi : fit_input)
      (r : calib T) (g : rng) : res (calib T * fit) * rng :=
    match breaks with
    | [] =>
        match max_of max_breaks i with
        | Raise e => (Raise e, g)
        | Ok m =>
            let '(out, g') := fit_cond (fi_x fi) (fi_y fi) (fi_err fi) (fi_cov fi) [FitCond.VStr "max_no_breaks"; VFlt m] g in
            (let* out := out in record_fit calindex out r, g')
        end
    | _ =>
        match (let* row := match nth_error breaks i with Some row => Ok row | None => Raise IndexError end in
               let* truth := max_truth max_breaks i in
               if truth then let* m := max_of max_breaks i in
                             Ok (row, [FitCond.VStr "breaks"; VArr (finite_breaks row); FitCond.VStr "max_no_breaks"; VFlt m])
               else Ok (row, [FitCond.VStr "breaks"; VArr (finite_breaks row)])) with
        | Raise e => (Raise e, g)
        | Ok (row, args) =>
            let '(out, g') := fit_cond (fi_x fi) (fi_y fi) (fi_err fi) (fi_cov fi) args g in
            (let* out := out in
             match out, finite_breaks row with
             | Fitted _, _ :: _ => Raise ValueError
             | _, _ => record_fit_breaks calindex out r
             end, g')
        end
    end.

  (* calibration.py 563-721: series i, the profiles with the flag v.  The test 599-601 for valid levels
     is true for every integer, so only a flag which no profile equals (NaN) skips the fit. *)
  Definition calindex_of (calseries : list T) (v : T) : list nat := argwhere (fun c => c =? v) calseries.
  Definition calibrate_series (cfg : cov_config T) (src : source T) (coords : option (list (coord T))) (d : mapped T)
      (c : calfile T) (percent : T) (max_breaks : list (list T)) (i : nat) (v : T) (r : calib T) (g : rng) : res (calib T) * rng :=
    let calindex := calindex_of (cf_calseries c) v in
    match (let* sd := select_series src coords d c percent calindex in
           match calindex with
           | [] => Ok None
           | _ => let* fi := build_input cfg sd in Ok (Some fi)
           end) with
    | Raise e => (Raise e, g)
    | Ok None => (Ok r, g)
    | Ok (Some fi) =>
        let '(rf, g') := fit_series i (cf_breaks c) max_breaks calindex fi r g in
        (let* (r, f) := rf in Ok (apply_fit src calindex (f_coef f) (FitCond.f_breaks f) r), g')
    end.
  Fixpoint calibrate_all (cfg : cov_config T) (src : source T) (coords : option (list (coord T))) (d : mapped T)
      (c : calfile T) (percent : T) (max_breaks : list (list T)) (i : nat) (vs : list T) (r : calib T) (g : rng) : res (calib T) * rng :=
    match vs with
    | [] => (Ok r, g)
    | v :: vs =>
        match calibrate_series cfg src coords d c percent max_breaks i v r g with
        | (Raise e, g') => (Raise e, g')
        | (Ok r', g') => calibrate_all cfg src coords d c percent max_breaks (S i) vs r' g'
        end
    end.

  (* calibration.py 465-481: everything missing *)
  Definition blank_calib (src : source T) : calib T :=
    let n := length (src_pres src) in
    let cols := repeat (repeat nnan (src_levels src)) n in
    let row := repeat nnan n in
    mkCalib cols cols row row cols cols row row row row cols cols (src_no src) [] [].

  (* calibration.py 399-743, from the contents of the files to what is saved.  The percentage is a
     1x1 array. *)
  Definition piecewisefit (cfg : cov_config T) (src : source T) (pos : positions T) (d : mapped T) (c : res (calfile T)) (g : rng)
      : res (calib T) * rng :=
    match (let* coords := match selected_hist d with
                          | [] => Ok None
                          | _ => let* l := float_coords pos in Ok (Some l)
                          end in
           let* c := c in
           let* percent := match cf_percent c with Some [[p]] => Ok p | Some _ => Raise ValueError | None => Raise KeyError end in
           let flags := series_flags (cf_calseries c) in
           let '(max_breaks, ok1) := spread_max (length flags) (cf_max_breaks c) in
           let* ok2 := check_breaks (length flags) (cf_breaks c) max_breaks in
           Ok (coords, c, percent, flags, max_breaks, ok1 && ok2)) with
    | Raise e => (Raise e, g)
    | Ok (coords, c, percent, flags, max_breaks, ok) =>
        if ok then calibrate_all cfg src coords d c percent max_breaks 0 flags (blank_calib src) g
        else (Ok (blank_calib src), g)
    end.
End Calib.
Arguments fit_input T : clear implicits.

(* ---- the files ---- *)
(* the configuration entries used *)
Record cal_paths : Type := mkCalPaths {
  cp_source_dir : string; cp_source_postfix : string; cp_mapped_dir : string; cp_mapped_prefix : string; cp_mapped_postfix : string;
  cp_calib_dir : string; cp_calib_prefix : string; cp_calib_postfix : string; cp_calseries_prefix : string }.
Local Open Scope string_scope.
(* calibration.py 400-401, 413-415, 451-453, 538-540 and 725-727 *)
Definition source_path (p : cal_paths) (dir name : string) : string := path_join [cp_source_dir p; dir; name ++ cp_source_postfix p].
Definition mapped_path (p : cal_paths) (dir name : string) : string :=
  path_join [cp_mapped_dir p; dir; cp_mapped_prefix p ++ name ++ cp_mapped_postfix p].
Definition calseries_path (p : cal_paths) (dir name : string) : string :=
  path_join [cp_calib_dir p; dir; cp_calseries_prefix p ++ name ++ cp_mapped_postfix p].
Definition calib_path (p : cal_paths) (dir name : string) : string :=
  path_join [cp_calib_dir p; dir; cp_calib_prefix p ++ name ++ cp_calib_postfix p].
(* configuration.py 158-161: where set_calseries reads and writes its file *)
Definition set_calseries_path (p : cal_paths) (dir name : string) : string :=
  path_join [cp_calib_dir p; dir; cp_calseries_prefix p ++ name ++ cp_calib_postfix p].
Local Close Scope string_scope.

Section Files.
  Context {T : Type} `{Num T} `{NumT T}.
  (* what the .mat files contain, by name *)
  Record files : Type := mkFiles {
    fl_source : string -> option (source T * positions T); fl_mapped : string -> option (mapped T);
    fl_calseries : string -> option (calfile T); fl_calib : string -> option (calib T) }.
  Definition found {A} (o : option A) : res A := match o with Some a => Ok a | None => Raise FileNotFoundError end.
  Definition written {A} (f : string -> option A) (p : string) (a : A) : string -> option A :=
    fun q => if String.eqb q p then Some a else f q.

  (* calibration.py 378-743, calc_piecewisefit; fit stands for piecewisefit with its oracles *)
  Definition calc_piecewisefit {rng : Type}
      (fit : source T -> positions T -> mapped T -> res (calfile T) -> rng -> res (calib T) * rng)
      (p : cal_paths) (dir name : string) (fl : files) (g : rng) : res unit * files * rng :=
    match (let* s := found (fl_source fl (source_path p dir name)) in
           let* d := found (fl_mapped fl (mapped_path p dir name)) in
           Ok (s, d)) with
    | Raise e => (Raise e, fl, g)
    | Ok (s, d) =>
        match fit (fst s) (snd s) d (found (fl_calseries fl (calseries_path p dir name))) g with
        | (Raise e, g') => (Raise e, fl, g')
        | (Ok r, g') => (Ok tt, mkFiles (fl_source fl) (fl_mapped fl) (fl_calseries fl)
                                        (written (fl_calib fl) (calib_path p dir name) r), g')
        end
    end.
End Files.
Arguments files T : clear implicits.
