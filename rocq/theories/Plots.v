(* Model of pyowc/plot/plots.py, utils.py and dashboard.py: the data handed to matplotlib, the figures it
   is drawn in and the files saved.  Not modelled: colours other than those of the annotations, line
   styles, titles, axis labels, legends, and the coastline, bathymetry and reef shapes, whose files are
   taken to be present. *)
From Coq Require Import String DecimalString.
From Coq Require Import ZArith List Bool Lia.
From Verif Require Import Num Np Finders Helper MapProfile Mapping Config Calib Pyplot.
Import ListNotations.
Local Open Scope num_scope.

(* str of an int *)
Definition string_of_nat (n : nat) : string := NilEmpty.string_of_uint (Nat.to_uint n).

Section Items.
  Context {T : Type}.
  (* what is drawn.  A label is a profile number or a text; Bars says whether the errors are horizontal;
     Limits whether the axis is the horizontal one; a Note has the number, the position and the place in
     the colour map; Contours x, y, one column of z for every x. *)
  Inductive label : Type := NoLabel | Number (n : T) | Text (s : string).
  Inductive item : Type :=
    | Curve (xs ys : list T) (l : label)
    | Bars (horizontal : bool) (xs ys errs : list T)
    | Band (xs lo hi : list T)
    | Level (y : T)
    | Limits (horizontal : bool) (lo hi : T)
    | Note (n x y shade : T)
    | Contours (xs ys : list T) (zs : list (list T)).
End Items.
Arguments item T : clear implicits.
Arguments label T : clear implicits.

Section Plots.
  Context {T : Type} `{Num T}.
  Notation mat := (nat -> nat -> T).
  Notation prog := (prog (item T)).
  (* scipy's interp1d: with bounds_error=True, and with bounds_error=False *)
  Variable interp1d : list T -> list T -> T -> res T.
  Variable interp1d_nan : list T -> list T -> T -> T.
  (* np.argsort with the default, unstable, algorithm *)
  Variable argsort : list T -> list nat.
  (* str of a list of two numbers *)
  Variable show_bounds : T * T -> string.

  (* plt.plot and plt.errorbar: x and y must have the same length *)
  Definition curve (xs ys : list T) (l : label T) : prog :=
    if Nat.eqb (length xs) (length ys) then pdo [Draw (Curve xs ys l)] else praise ValueError.
  Definition bars (horizontal : bool) (xs ys errs : list T) : prog :=
    if Nat.eqb (length xs) (length ys) && Nat.eqb (length xs) (length errs)
    then pdo [Draw (Bars horizontal xs ys errs)] else praise ValueError.
  (* plt.xlim, plt.ylim: limits must be finite *)
  Definition limits (horizontal : bool) (lo hi : T) : prog :=
    if nisfin lo && nisfin hi then pdo [Draw (Limits horizontal lo hi)] else praise ValueError.

  (* the file names, e.g. plots.py 139-141 *)
  Record plot_paths : Type := mkPlotPaths { pp_directory : string; pp_format : string; pp_bounds : list (T * T) }.
  Definition plot_file (p : plot_paths) (name suffix : string) : string :=
    (path_join [pp_directory p; name] ++ suffix ++ "." ++ pp_format p)%string.

  Definition at1 {A} (l : list A) (i : nat) : res A :=
    match nth_error l i with Some a => Ok a | None => Raise IndexError end.
  Definition at2 (cols : list (list T)) (i j : nat) : res T := let* c := at1 cols j in at1 c i.

  (* utils.py 18-35, create_dataframe: the columns of a data frame must have the same length *)
  Definition float_rows (number lat long : list T) : res (list (T * T * T)) :=
    if Nat.eqb (length number) (length lat) && Nat.eqb (length number) (length long)
    then Ok (combine (combine number long) lat) else Raise ValueError.

  (* plots.py 93-141, trajectory_plot on the rows (number, longitude, latitude) of the float and the
     positions (longitude, latitude) of the climatology.  Missing values are skipped by min and max. *)
  Definition noted (rows idx : nat) : bool := Nat.eqb idx 0 || Nat.eqb (idx mod 3) 0 || Nat.eqb idx (rows - 1).
  Definition trajectory_plot (floats : list (T * T * T)) (climatology : list (T * T)) (p : plot_paths) (name : string) : prog :=
    let xs := map fst climatology in
    let ys := map snd climatology in
    let rows := length floats in
    pseq (curve (map (fun r => snd (fst r)) floats) (map snd floats) (Text "Float Profiles"))
   (pseq (curve xs ys (Text "Climatology"))
   (pseq (limits true (nanmin xs - nofZ 20) (nanmax xs + nofZ 20))
   (pseq (limits false (nanmin ys - nofZ 15) (nanmax ys + nofZ 15))
   (pseq (pfor (combine (seq 0 rows) floats) (fun ir =>
            let '(idx, (number, long, lat)) := ir in
            if noted rows idx
            then pdo [Draw (Note number long lat (nofZ (Z.of_nat idx + 1) / nofZ (Z.of_nat rows)))] else pnil))
         (pdo [Savefig (plot_file p name "_trajectory")]))))).

  (* plots.py 176: the numbers in n_legend *)
  Definition n_legend (n : nat) (profiles : list T) : res (list T) :=
    match rev profiles with
    | [] => Raise IndexError
    | z :: _ => np_arange 0 z (nceil (nofZ (Z.of_nat n) / nofZ 30))
    end.

  (* plots.py 147-203, theta_sal_plot.  sal and theta have one row per profile; the three mapped arrays
     are given by columns; index has ten rows, None for NaN. *)
  Definition theta_sal_plot (sal theta : list (list T)) (map_sal map_theta map_errors : list (list T))
      (index : list (list (option nat))) (profiles : list T) (p : plot_paths) (name title : string) : prog :=
    let n := length sal in
    pseq (pdo [NewFigure])
   (pbind (n_legend n profiles) (fun legend =>
    pseq (pfor (seq 0 n) (fun i =>
      pbind (let* s := at1 sal i in
             let* th := at1 theta i in
             let* l := (if existsb (fun x => x =? nofZ (Z.of_nat i)) legend
                        then let* k := at1 profiles i in Ok (Number k) else Ok NoLabel) in
             Ok (s, th, l)) (fun q =>
      pseq (curve (fst (fst q)) (snd (fst q)) (snd q))
     (pbind (mapM (fun row => at1 row i) index) (fun column =>
      pfor column (fun o => match o with
        | None => pnil
        | Some j => pbind (let* a := at2 map_sal j i in
                           let* b := at2 map_theta j i in
                           let* e := at2 map_errors j i in
                           Ok (a, b, e)) (fun abe => bars true [fst (fst abe)] [snd (fst abe)] [snd abe])
        end))))))
   (pdo [Savefig (plot_file p name ("_" ++ title ++ "_theta_sal")); Show]))).

  (* plots.py 207-275, t_s_profile_plot; the arrays by columns, one curve per column *)
  Definition curves (xs ys : list (list T)) : prog := pfor (combine xs ys) (fun q => curve (fst q) (snd q) NoLabel).
  Definition t_s_profile_plot (sal ptmp pres : list (list T)) (sal_var theta_levels tlevels plevels : list T)
      (p : plot_paths) (name : string) : prog :=
    let depth := map (map (fun x => nofZ (-1) * x)) pres in
    let hlines l := pdo (map (fun y => Draw (Level y)) l) in
    pseq (pdo [Figure 1; Subplot 2]) (pseq (curves sal ptmp) (pseq (hlines tlevels)
   (pseq (pdo [Subplot 1]) (pseq (curve sal_var theta_levels NoLabel) (pseq (hlines tlevels)
   (pseq (pdo [Subplot 3]) (pseq (curves ptmp depth) (pseq (hlines (map nopp plevels))
   (pseq (pdo [Subplot 4]) (pseq (curves sal depth) (pseq (hlines (map nopp plevels))
         (pdo [Savefig (plot_file p name "_salinity_profile"); Show])))))))))))).

  (* ---- sal_var_plot, plots.py 283-558 ---- *)

  (* the seven arrays that are blanked together *)
  Record seven : Type := mkSeven {
    v_pres : mat; v_sal : mat; v_ptmp : mat; v_map_sal : mat; v_map_err : mat; v_cal_sal : mat; v_cal_err : mat }.
  Definition map_seven (f : mat -> mat) (s : seven) : seven :=
    mkSeven (f (v_pres s)) (f (v_sal s)) (f (v_ptmp s)) (f (v_map_sal s)) (f (v_map_err s)) (f (v_cal_sal s)) (f (v_cal_err s)).

  (* np.argwhere of a condition on a matrix: the pairs of its indices, row by row *)
  Definition where2 (nr nc : nat) (p : nat -> nat -> bool) : list (nat * nat) :=
    filter (fun q => p (fst q) (snd q)) (flat_map (fun i => map (fun j => (i, j)) (seq 0 nc)) (seq 0 nr)).
  (* x[good] = np.nan with such an array good of shape (k, 2): every number in it, of a row or of a
     column, is taken as the number of a row, and the whole row is overwritten *)
  Definition blank_rows (nr : nat) (good : list (nat * nat)) (s : seven) : res seven :=
    if forallb (fun q => Nat.ltb (fst q) nr && Nat.ltb (snd q) nr) good
    then Ok (map_seven (blank (fun i _ => existsb (fun q => Nat.eqb i (fst q) || Nat.eqb i (snd q)) good)) s)
    else Raise IndexError.

  (* plots.py 345-382: by temperature.  Only with an upper bound alone is good a boolean mask. *)
  Definition theta_pass (nr nc : nat) (lt gt : option T) (s : seven) : res seven :=
    match lt, gt with
    | None, None => Ok s
    | Some _, None => Ok (map_seven (blank (fun i j => discard lt gt (v_ptmp s i j))) s)
    | _, _ => blank_rows nr (where2 nr nc (fun i j => discard lt gt (v_ptmp s i j))) s
    end.
  (* plots.py 384-421: by pressure *)
  Definition pres_pass (nr nc : nat) (lt gt : option T) (s : seven) : res seven :=
    match lt, gt with
    | None, None => Ok s
    | _, _ => blank_rows nr (where2 nr nc (fun i j => discard lt gt (v_pres s i j))) s
    end.
  (* plots.py 335-421 *)
  Definition blanked (nr nc : nat) (map_ptmp : mat) (theta_lt theta_gt pres_lt pres_gt : option T) (s : seven) : res seven :=
    let s := map_seven (blank (fun i j => nisnan (map_ptmp i j))) s in
    let* s := theta_pass nr nc theta_lt theta_gt s in
    pres_pass nr nc pres_lt pres_gt s.

  (* plots.py 443-470: the row k_index next to row ti across the level; ValueError for two of them
     (the truth value of an array, 472) *)
  Definition k_index (nr : nat) (ptmp : mat) (theta : T) (j ti : nat) : res nat :=
    let lo := (ti - 1)%nat in
    let hi := Nat.min (ti + 1) (nr - 1) in
    let interval := seq lo (hi + 1 - lo) in
    let diff := map (fun k => ptmp ti j - ptmp k j) interval in
    let near (p : T -> bool) (f : T -> T) : list nat :=
      match filter p diff with
      | [] => [ti]
      | s => let m := nanmin (map f s) in
             map snd (filter (fun dk => f (fst dk) =? m) (combine diff interval))
      end in
    let* k_index :=
      if ptmp ti j >? theta then Ok (near (fun d => d >? 0) (fun d => d))
      else if ptmp ti j <? theta then Ok (near (fun d => d <? 0) nopp)
      else if ptmp ti j =? theta then Ok [ti]
      else Raise UnboundLocalError in                               (* NaN: not reachable *)
    match k_index with [k] => Ok k | _ => Raise ValueError end.
  (* plots.py 472-525: val is interpolated between the two rows if it can be, where test is known *)
  Definition on_level (ptmp test val : mat) (theta : T) (j ti k : nat) : res T :=
    if negb (Nat.eqb k ti) && negb (nisnan (test ti j)) && negb (nisnan (test k j))
       && negb (nisnan (ptmp ti j)) && negb (nisnan (ptmp k j))
    then interp1d [ptmp ti j; ptmp k j] [val ti j; val k j] theta
    else Ok (val ti j).

  (* the five values drawn for a profile on a level: the salinity of the float, the mapped salinity with
     its error, the calibrated salinity with its error *)
  Record point : Type := mkPoint { q_int : T; q_map : T; q_map_err : T; q_cal : T; q_cal_err : T }.
  Definition level_point (nr : nat) (s : seven) (theta : T) (j : nat) : res point :=
    match theta_index nr (v_ptmp s) theta j with
    | None => Ok (mkPoint nnan nnan nnan nnan nnan)
    | Some ti =>
        let* k := k_index nr (v_ptmp s) theta j ti in
        let get test val := on_level (v_ptmp s) test val theta j ti k in
        let* a := get (v_sal s) (v_sal s) in
        let* b := get (v_map_sal s) (v_map_sal s) in
        let* c := get (v_map_sal s) (v_map_err s) in
        let* d := get (v_cal_sal s) (v_cal_sal s) in
        let* e := get (v_cal_sal s) (v_cal_err s) in
        Ok (mkPoint a b c d e)
    end.

  (* plots.py 309-525: the rows of points, one row per level *)
  Definition level_points (levels nr nc : nat) (map_ptmp : mat) (theta_lt theta_gt pres_lt pres_gt : option T)
      (percent : T) (s : seven) : res (list (list point)) :=
    let* (th, _) := find_10thetas interp1d nr nc (v_sal s) (v_ptmp s) (v_pres s) map_ptmp theta_lt theta_gt pres_lt pres_gt percent in
    let* s := blanked nr nc map_ptmp theta_lt theta_gt pres_lt pres_gt s in
    let* ths := mapM (at1 (t_levels th)) (seq 0 levels) in
    mapM (fun theta => mapM (level_point nr s theta) (seq 0 nc)) ths.

  (* plots.py 526-558 *)
  Definition sal_var_plot (levels nr nc : nat) (map_ptmp : mat) (theta_lt theta_gt pres_lt pres_gt : option T)
      (percent : T) (s : seven) (profile_no : list T) (p : plot_paths) (name : string) : prog :=
    pbind (level_points levels nr nc map_ptmp theta_lt theta_gt pres_lt pres_gt percent s) (fun rows =>
    let s_int := flat_map (map q_int) rows in
    pfor (combine (seq 0 levels) rows) (fun ir =>
      let row := snd ir in
      let good := map snd (filter (fun q => nisfin (q_cal (snd q))) (combine profile_no row)) in
      pseq (pdo [NewFigure])
     (pseq (bars false profile_no (map q_map row) (map q_map_err row))
     (pseq (pdo [Draw (Band (map fst (filter (fun q => nisfin (q_cal (snd q))) (combine profile_no row)))
                            (map (fun q => q_cal q + q_cal_err q) good) (map (fun q => q_cal q - q_cal_err q) good))])
     (pseq (curve profile_no (map q_int row) (Text "uncalibrated float"))
     (pseq (curve profile_no (map q_map row) NoLabel)
     (pseq (curve profile_no (map q_cal row) (Text "calibrated float w/ 1xerr"))
     (pseq (curve profile_no (map q_map row) (Text "mapped salinity"))
     (pseq (pdo [Savefig (plot_file p name ("_salinity_variance_" ++ string_of_nat (S (fst ir))))])
     (pseq (limits false (nanmin s_int - nq 5 100) (nanmax s_int + nq 5 100))
           (pdo [Show]))))))))))).

  (* ---- cal_sal_curve_plot, plots.py 564-660; the arrays by columns ---- *)
  Definition nanmean (l : list T) : T := match drop_nan l with [] => nnan | l => mean l end.
  Definition offsets (a b : list (list T)) : list T :=
    map (fun q => nanmean (map2 nsub (fst q) (snd q))) (combine a b).
  Definition known (xs ys : list T) : list (T * T) := filter (fun q => nisfin (snd q)) (combine xs ys).
  (* Simplification: all the arrays have the same shape. *)
  Definition cal_sal_curve_plot (sal cal_sal cal_sal_err sta_sal : list (list T)) (sta_mean factor factor_err profile_no : list T)
      (p : plot_paths) (name : string) : prog :=
    if forallb (fun c => forallb nisnan c) cal_sal then pnil
    else
      let avg := offsets cal_sal sal in
      let avg_err := map nanmean cal_sal_err in
      let sta := offsets sta_sal sal in
      let panel (ys errs singles : list T) (line : T) :=
        pseq (curve profile_no ys NoLabel)
       (pseq (pdo [Draw (Curve (map fst (known profile_no singles)) (map snd (known profile_no singles)) (Text "1-1 profile fit"))])
       (pseq (bars false profile_no ys (map (fun e => nofZ 2 * e) errs))
       (pseq (bars false profile_no ys errs)
       (pseq (pdo [Draw (Curve [nofZ (-1000); nofZ 1000] [line; line] NoLabel)])
             (limits true (nanmin profile_no) (nanmax profile_no)))))) in
      pseq (pdo [NewFigure; Subplot 1])
     (pseq (panel factor factor_err sta_mean 1)
     (pseq (pdo [Subplot 2; Figure 1])
     (pseq (panel avg avg_err sta 0)
           (pdo [Savefig (plot_file p name "_salinity_curve"); Show])))).

  (* ---- sal_anom_plot, plots.py 663-752 ---- *)
  (* 683: np.arange(0.1, 30.1, 0.1) *)
  Definition theta_base : res (list T) := np_arange (nq 1 10) (nq 301 10) (nq 1 10).
  (* 696-705: one of the salinities at every temperature, in ascending order of the temperature.  np.unique
     gives the first position of every value; a NaN is equal to none. *)
  Fixpoint drop_equal (prev : T) (l : list (T * T)) : list (T * T) :=
    match l with
    | [] => []
    | b :: r => if fst b =? prev then drop_equal prev r else b :: drop_equal (fst b) r
    end.
  Definition first_of_equal (l : list (T * T)) : list (T * T) :=
    match l with [] => [] | a :: r => a :: drop_equal (fst a) r end.
  Definition good_pairs (temp sal : list T) : list (T * T) :=
    let pairs := combine temp sal in
    let sorted := take (nnan, nnan) pairs (argsort temp) in
    filter (fun q => negb (nisnan (fst q)) && negb (nisnan (snd q))) (first_of_equal sorted).
  (* 707-712: the salinities on the temperatures base *)
  Definition interpolated (base temp sal : list T) : list T :=
    let good := good_pairs temp sal in
    if Nat.leb 3 (length good)
    then map (interp1d_nan (map fst good) (map snd good)) base
    else map (fun _ => nnan) base.
  (* np.nanmedian: the middle of the sorted values, or the mean of the two in the middle *)
  Definition nanmedian (l : list T) : T :=
    let s := np_sort (drop_nan l) in
    let n := length s in
    if Nat.eqb n 0 then nnan
    else if Nat.odd n then nth (n / 2) s nnan
    else mean [nth (n / 2 - 1) s nnan; nth (n / 2) s nnan].
  (* 691-727: the anomalies, one column per profile.  Profiles before the first and after the last one
     with a temperature are left out. *)
  Definition profile_range (ptmp : list (list T)) : res (nat * nat) :=
    match argwhere (fun c => negb (forallb nisnan c)) ptmp with
    | [] => Raise ValueError
    | a :: r => Ok (a, last r a)
    end.
  Definition anomalies (base : list T) (sal ptmp : list (list T)) : res (list (list T)) :=
    let* (first, final) := profile_range ptmp in
    let inside k := Nat.leb first k && Nat.leb k final in
    let n := length sal in
    let sal_int := map (fun k => if inside k then interpolated base (nth k ptmp []) (nth k sal []) else map (fun _ => nnan) base) (seq 0 n) in
    let med := map (fun i => nanmedian (map (fun c => nth i c nnan) sal_int)) (seq 0 (length base)) in
    Ok (map (fun k => if inside k then map2 nsub (nth k sal_int []) med else map (fun _ => nnan) base) (seq 0 n)).

  (* plt.contourf and plt.contour: z must be at least 2 by 2 and match x and y *)
  Definition contours (xs ys : list T) (zs : list (list T)) : prog :=
    if Nat.leb 2 (length zs) && Nat.eqb (length xs) (length zs) then pdo [Draw (Contours xs ys zs)] else praise TypeError.
  Definition sal_anom_plot (sal ptmp : list (list T)) (profile_no : list T) (p : plot_paths) (name title : string) : prog :=
    pbind (let* base := theta_base in let* z := anomalies base sal ptmp in Ok (base, z)) (fun bz =>
    pfor (pp_bounds p) (fun b =>
      pseq (pdo [NewFigure])
     (pseq (contours profile_no (fst bz) (snd bz))
     (pseq (limits false (fst b) (snd b))
           (pdo [Savefig (plot_file p name ("_" ++ title ++ "_salinity_anomaly_" ++ show_bounds b)); Show]))))).

  (* ---- dashboard.py 15-136, plot_diagnostics on the contents of the four files ---- *)
  (* 45 and 49: longitudes above 180 *)
  Definition east_west (x : T) : T := if x >? nofZ 180 then x - nofZ 360 else x.
  Definition seven_of (src : source T) (d : mapped T) (k : calib T) : seven :=
    mkSeven (of_cols (src_pres src)) (of_cols (src_sal src)) (of_cols (src_ptmp src)) (of_cols (m_cols (la_mapped_sal d)))
            (of_cols (m_cols (la_map_sal_errors d))) (of_cols (k_sal k)) (of_cols (k_sal_err k)).
  Definition plot_diagnostics (src : source T) (pos : positions T) (d : mapped T) (c : calfile T) (k : calib T)
      (levels : nat) (p : plot_paths) (name : string) : prog :=
    let nr := src_levels src in
    let nc := length (src_sal src) in
    let no := src_no src in
    match selected_hist d with
    | [] => praise IndexError
    | _ =>
      let clim := map (fun h => (east_west (fst (fst h)), snd (fst h))) (selected_hist d) in
      pbind (float_rows no (concat (ps_lat pos)) (map east_west (concat (ps_long pos)))) (fun floats =>
      pseq (pseq (trajectory_plot floats clim p name) (pdo [Show]))
     (pbind (let* theta_lt := window_bound (cf_theta_lt c) in
             let* theta_gt := window_bound (cf_theta_gt c) in
             let* pres_lt := window_bound (cf_pres_lt c) in
             let* pres_gt := window_bound (cf_pres_gt c) in
             let* percent := match cf_percent c with Some [[x]] => Ok x | Some _ => Raise ValueError | None => Raise KeyError end in
             let* (th, _) := find_10thetas interp1d nr nc (of_cols (src_sal src)) (of_cols (src_ptmp src)) (of_cols (src_pres src))
                               (of_cols (m_cols (la_ptmp d))) theta_lt theta_gt pres_lt pres_gt percent in
             Ok (theta_lt, theta_gt, pres_lt, pres_gt, percent, th)) (fun q =>
      let '(theta_lt, theta_gt, pres_lt, pres_gt, percent, th) := q in
      let theta_sal sal title := theta_sal_plot sal (src_ptmp src) (m_cols (la_mapped_sal d)) (m_cols (la_ptmp d))
                                   (m_cols (la_map_sal_errors d)) (th_index th) no p name title in
      pseq (theta_sal (src_sal src) "uncalibrated"%string)
     (pseq (sal_anom_plot (src_sal src) (src_ptmp src) no p name "uncalibrated")
     (pseq (cal_sal_curve_plot (src_sal src) (k_sal k) (k_sal_err k) (k_sta_sal k) (k_sta_mean k) (k_factor k) (k_factor_err k) no p name)
     (pseq (theta_sal (k_sal k) "calibrated"%string)
     (pseq (sal_var_plot levels nr nc (of_cols (m_cols (la_ptmp d))) theta_lt theta_gt pres_lt pres_gt percent (seven_of src d k) no p name)
     (pseq (sal_anom_plot (k_sal k) (src_ptmp src) no p name "calibrated")
           (t_s_profile_plot (src_sal src) (src_ptmp src) (src_pres src) (var_sal_theta th) (theta_levels th) (t_levels th) (p_levels th) p name)))))))))
    end.
End Plots.
