(* Model of pyowc/data/wrangling.py *)
From Coq Require Import ZArith List Bool Lia.
From Verif Require Import Num Np Stats.
Import ListNotations.
Local Open Scope num_scope.

Section MapDataGrid.
  Context {T : Type} `{Num T} `{NumT T}.
  Notation mat := (nat -> nat -> T).
  Variable inv : nat -> mat -> res mat.                   (* np.linalg.inv *)

  (* wrangling.py 17-82, map_data_grid.  sal is 1-d (the caller flattens it), positions are rows
     [lat, long, age, depth].  np.dot and np.sum are modelled as left-to-right sums.  The builtin
     sum(sum(m)) of a 0*0 matrix iterates over the integer 0: TypeError.  Returned are
     (value, error) at the first grid position, and the values and errors at the data positions. *)
  Definition map_data_grid (sal : list T) (grid_pos data_pos : list (point T)) (lat long age : T)
      (signal_variance noise_variance phi : T) (map_pv_use : Z) : res (T * T * list T * list T) :=
    let n := length data_pos in
    let* data_pos_covar := covar_xyt_pv data_pos data_pos lat long age phi map_pv_use in
    let* data_data_covar :=
      inv n (fun i j => signal_variance * data_pos_covar i j
                        + noise_variance * (if Nat.eqb i j then 1 else 0)) in
    if Nat.eqb n 0 then Raise TypeError
    else
      let sum_data_data_covar :=
        nsum (map (fun j => nsum (map (fun i => data_data_covar i j) (seq 0 n))) (seq 0 n)) in
      if negb (Nat.eqb (length sal) n) then Raise ValueError
      else
        let mean_field :=
          nsum (map (mvmul n data_data_covar (vec sal)) (seq 0 n)) / sum_data_data_covar in
        let weight := mvmul n data_data_covar (fun i => vec sal i - mean_field) in
        let value (c : mat) i := mvmul n c weight i + mean_field in
        let error (c : mat) i :=
          let dot_covar_diag := mmul n (mmul n c data_data_covar) (transp c) i i in
          let covar_sum := nsum (map (mmul n c data_data_covar i) (seq 0 n)) in
          nsqrt (signal_variance - dot_covar_diag + nsq (1 - covar_sum) / sum_data_data_covar) in
        let pos_data_covar : mat := fun i j => signal_variance * data_pos_covar i j in
        let* grid_covar := covar_xyt_pv data_pos grid_pos lat long age phi map_pv_use in
        let grid_data_covar : mat := transp (fun i j => signal_variance * grid_covar i j) in
        if Nat.eqb (length grid_pos) 0 then Raise IndexError
        else Ok (value grid_data_covar 0%nat, error grid_data_covar 0%nat,
                 tab n (value pos_data_covar), tab n (error pos_data_covar)).
End MapDataGrid.

(* a 2-d array *)
Record array2 {T : Type} : Type := mkArray2 { a_rows : nat; a_cols : nat; a_get : nat -> nat -> T }.
Arguments array2 : clear implicits.

Section InterpClimatology.
  Context {T : Type} `{Num T}.

  Definition column {A} (a : array2 A) (j : nat) : list A := map (fun i => a_get a i j) (seq 0 (a_rows a)).

  (* wrangling.py 231-239, _get_finite_element_mask, one element *)
  Definition finite3 (q : T * T * T) : bool :=
    let '(s, t, p) := q in nisfin s && nisfin t && nisfin p.

  (* wrangling.py 207-217: the valid elements of one station, in order *)
  Definition station_levels (grid_sal grid_theta grid_pres : array2 T) (j : nat) : list (T * T * T) :=
    filter finite3 (combine (combine (column grid_sal j) (column grid_theta j)) (column grid_pres j)).
  (* padded with NaN to the common number of levels *)
  Definition pad (n : nat) (l : list (T * T * T)) : list (T * T * T) :=
    (l ++ repeat (nnan, nnan, nnan) (n - length l))%list.

  (* wrangling.py 200-228, _get_cleaned_grid_data: per station the columns (sal, theta, pres), all of
     the length max_level; None when max_level is 0.  np.max of no columns raises ValueError. *)
  Definition cleaned_grid_data (grid_sal grid_theta grid_pres : array2 T) : res (option (list (list (T * T * T)))) :=
    let levels := map (station_levels grid_sal grid_theta grid_pres) (seq 0 (a_cols grid_sal)) in
    if Nat.eqb (a_cols grid_sal) 0 then Raise ValueError
    else
      let max_level := fold_right Nat.max 0%nat (map (@length _) levels) in
      if Nat.eqb max_level 0 then Ok None else Ok (Some (map (pad max_level) levels)).

  (* consecutive rows of a column *)
  Definition steps {A} (l : list A) : list (A * A) := combine l (tl l).

  (* wrangling.py 191-197, find_sign_changes_in_columns, one column *)
  Definition sign_change (d : T * T) : bool := snd d * fst d <=? 0.

  (* wrangling.py 167-188: calculate_interpolation_weights (value against the theta column),
     interpolate_values of a reference column *)
  Definition interpolation_weight (value : T) (th : T * T) : T := (value - fst th) / (snd th - fst th).
  Definition interpolate (w : T) (r : T * T) : T := fst r + w * (snd r - fst r).

  (* wrangling.py 137-162 for one float level and one station: its column of the placeholder array is
     NaN except at the sign changes; nothing is written for a station without sign change *)
  Definition interp_station (value float_pres : T) (col : list (T * T * T)) : res (T * T) :=
    let theta := map (fun q => snd (fst q)) col in
    let sal := map (fun q => fst (fst q)) col in
    let pres := map snd col in
    let changes := map sign_change (steps (map (fun t => t - value) theta)) in
    let factors := map (interpolation_weight value) (steps theta) in
    let placeholder ref :=
      map (fun q : bool * T * (T * T) => if fst (fst q) then interpolate (snd (fst q)) (snd q) else nnan)
          (combine (combine changes factors) (steps ref)) in
    if existsb (fun b => b) changes then
      let* min_pres := nanargmin (map (fun x => nabs (x - float_pres)) (placeholder pres)) in
      Ok (nth min_pres (placeholder sal) nnan, nth min_pres (placeholder pres) nnan)
    else Ok (nnan, nnan).

  (* wrangling.py 137-162 for one float level: np.nanargmin along an axis of length 0 raises
     ValueError even when no station is selected *)
  Definition interp_level (grid : list (list (T * T * T))) (q : T * T * T) : res (list (T * T)) :=
    let '(_, t, p) := q in
    if finite3 q then
      if Nat.eqb (length (hd [] grid)) 1 then Raise ValueError
      else mapM (interp_station t p) grid
    else Ok (repeat (nnan, nnan) (length grid)).

  (* wrangling.py 89-164, interp_climatology.  The three float arrays are 1-d of one length, given as
     (sal, theta, pres); the result is, per float level and station, (salinity, pressure).  (NaN where
     nothing is written.)  The grid arrays are not changed: both are copied first. *)
  Definition interp_climatology (grid_sal grid_theta grid_pres : array2 T) (float : list (T * T * T))
      : res (list (list (T * T))) :=
    let grid_stations := a_cols grid_sal in
    let missing := map (fun _ => repeat (nnan, nnan) grid_stations) float in
    let same (a b : array2 T) := Nat.eqb (a_rows a) (a_rows b) && Nat.eqb (a_cols a) (a_cols b) in
    if negb (same grid_sal grid_theta && same grid_theta grid_pres) then Ok missing
    else
      let* grid_data := cleaned_grid_data grid_sal grid_theta grid_pres in
      match grid_data with
      | None => Ok missing
      | Some grid => mapM (interp_level grid) float
      end.
End InterpClimatology.
