(* Model of pyowc/core/finders.py *)
From Coq Require Import ZArith List Bool Lia.
From Verif Require Import Num Np Utilities.
Import ListNotations.
Local Open Scope num_scope.

(* np.vectorize(f) on a 1-d array: refuses empty input (otypes not given).  The extra probing
   call on the first element has no effect of its own. *)
Definition vectorize {A B} (f : A -> res B) (l : list A) : res (list B) :=
  match l with [] => Raise ValueError | _ => mapM f l end.

(* a[:k] with Python's negative k *)
Definition py_prefix {A} (k : Z) (l : list A) : list A :=
  if Z.ltb k 0 then firstn (Z.to_nat (Z.of_nat (length l) + k)) l else firstn (Z.to_nat k) l.

(* np.concatenate of a list of 1-element arrays: refuses the empty list *)
Definition np_concat1 {A} (l : list A) : res (list A) :=
  match l with [] => Raise ValueError | _ => Ok l end.

(* math.ceil(m / 3) for an integer m *)
Definition ceil3 (m : Z) : Z := (- ((- m) / 3))%Z.

(* One historical cast: entry k of grid_lat, grid_long, grid_dates, grid_z_value.  The four
   arrays of the code have equal length; the model fuses them. *)
Record cast (T : Type) := mkCast { c_lat : T; c_long : T; c_date : T; c_z : T }.
Arguments mkCast {T} c_lat c_long c_date c_z.
Arguments c_lat {T} c. Arguments c_long {T} c. Arguments c_date {T} c. Arguments c_z {T} c.

Section Ellipse.
  Context {T : Type} `{Num T}.

  (* finders.py 20-56, find_ellipse (Python floats, hence ZeroDivisionError) *)
  Definition find_ellipse (data_long ellipse_long ellipse_size_long data_lat ellipse_lat
      ellipse_size_lat phi data_pv ellipse_pv : T) : res T :=
    let* total_pv :=
      if negb (data_pv =? 0) && negb (ellipse_pv =? 0) then
        let* a := pydiv (ellipse_pv - data_pv) (nsqrt (nsq ellipse_pv + nsq data_pv)) in
        pydiv a phi
      else Ok 0 in
    let* a := pydiv (nsq (data_long - ellipse_long)) (nsq (ellipse_size_long * nofZ 3)) in
    let* b := pydiv (nsq (data_lat - ellipse_lat)) (nsq (ellipse_size_lat * nofZ 3)) in
    Ok (nsqrt (a + b + nsq total_pv)).
End Ellipse.

Section Besthist.
  Context {T : Type} `{Num T} `{NumT T}.
  (* numpy's global generator: np.random.seed(n), np.random.rand(k) *)
  Context {rng : Type}.
  Variable seed : Z -> rng.
  Variable rand : rng -> nat -> list T * rng.
  (* ndarray.argsort() with the default, unstable, algorithm *)
  Variable unstable_argsort : list T -> list nat.

  (* finders.py 67-70: arguments describing the float and the scales *)
  Variables lat long date z_value : T.
  Variables latitude_large latitude_small longitude_large longitude_small
            phi_large phi_small age_large age_small : T.
  Variable map_pv_use : Z.

  Definition use_pv : bool := Z.eqb map_pv_use 1.

  (* finders.py 129-131, 185-186, 227-229: potential vorticities of a list of casts; the scalar 0
     broadcast over the list when PV is not used *)
  Definition pv_casts (l : list (cast T)) : res (list T) :=
    if use_pv then vectorize (fun c => potential_vorticity (c_lat c) (c_z c)) l
    else Ok (map (fun _ => 0) l).

  Definition pv_float : res T := if use_pv then potential_vorticity lat z_value else Ok 0.

  (* finders.py 188-193 and 231-238: the calls of the vectorised spatial_correlation.  The last
     three positional arguments are (pv_hist, pv_float, phi), which bind to the parameters
     (phi, pv_1, pv_2). *)
  Definition correlations (slong slat sage sphi pvf : T) (l : list (cast T)) : res (list T) :=
    let* pvh := pv_casts l in
    vectorize (fun cp => spatial_correlation (c_long (fst cp)) long slong (c_lat (fst cp)) lat slat
                           (c_date (fst cp)) date sage (snd cp) pvf sphi)
              (combine l pvh).

  Definition dcast : cast T := mkCast nnan nnan nnan nnan.

  (* finders.py 157-164: the positions drawn at random among n casts *)
  Definition index_rand (n : nat) (draws : list T) : list T :=
    let r := map (fun u => nrint (u * nofZ (Z.of_nat n) - 1)) draws in
    let r := map (fun x => if x =? nofZ (-1) then 0 else x) r in
    np_sort (np_unique r).

  (* finders.py 151-302: the selection when more than max_casts casts are inside *)
  Definition besthist_select (grid : list (cast T)) (pvf : T) (index_ellipse : list nat)
      (max_casts : Z) (g0 : rng) : res (list nat) * rng :=
    let n := length index_ellipse in
    let hist := take dcast grid index_ellipse in
    let g1 := seed (Z.of_nat n) in
    if Z.ltb (ceil3 max_casts) 0 then (Raise ValueError, g1)      (* rand(negative) *)
    else
      let '(draws, g2) := rand g1 (Z.to_nat (ceil3 max_casts)) in
      (let irand := index_rand n draws in
       let index_remain :=
         filter (fun i => negb (existsb (fun x => nofZ (Z.of_nat i) =? x) irand)) (seq 0 n) in
       let remain := take dcast hist index_remain in
       let* correlation_large :=
         correlations longitude_large latitude_large age_large phi_large pvf remain in
       let large_sorted := unstable_argsort correlation_large in
       let z_remain := take dcast remain large_sorted in
       let lsegment2 := (ceil3 max_casts + ceil3 max_casts - Z.of_nat (length irand))%Z in
       let index_z := seq (Z.to_nat lsegment2) (length z_remain - Z.to_nat lsegment2) in
       let s_remain := take dcast z_remain index_z in
       let* correlation_small :=
         correlations longitude_small latitude_small age_small phi_small pvf s_remain in
       let small_sorted := unstable_argsort correlation_small in
       let leftover := (max_casts - Z.of_nat (length irand) - lsegment2)%Z in
       let* index_rand_ellipse :=
         let* l := mapM (fun x => match py_index index_ellipse (ntoZ x) with
                                  | Some k => Ok k | None => Raise IndexError end) irand in
         np_concat1 l in
       let i2_large := py_prefix lsegment2 large_sorted in
       let* index_large_spatial :=
         np_concat1 (take 0%nat index_ellipse (take 0%nat index_remain i2_large)) in
       let i3_small := py_prefix leftover small_sorted in
       let i3_z := take 0%nat index_z i3_small in
       let i3_large := take 0%nat large_sorted i3_z in
       let i3_remain := take 0%nat index_remain i3_large in
       let* index_small_spatial := np_concat1 (take 0%nat index_ellipse i3_remain) in
       Ok (index_rand_ellipse ++ index_large_spatial ++ index_small_spatial)%list,
       g2).

  (* finders.py 117-148: the casts inside the large ellipse *)
  Definition ellipse_index (grid : list (cast T)) : res (T * list nat) :=
    let* pvf := pv_float in
    let* pvh := pv_casts grid in
    let* ellipse :=
      vectorize (fun cp => find_ellipse (c_long (fst cp)) long longitude_large (c_lat (fst cp)) lat
                             latitude_large phi_large (snd cp) pvf) (combine grid pvh) in
    Ok (pvf, argwhere (fun e => e <? 1) ellipse).

  (* finders.py 67-304, find_besthist, with the generator state made explicit *)
  Definition find_besthist (grid : list (cast T)) (max_casts : Z) (g0 : rng) : res (list nat) * rng :=
    match ellipse_index grid with
    | Raise e => (Raise e, g0)
    | Ok (pvf, index_ellipse) =>
        if Z.ltb max_casts (Z.of_nat (length index_ellipse))
        then besthist_select grid pvf index_ellipse max_casts g0
        else (Ok index_ellipse, g0)
    end.
End Besthist.

Section Boxes.
  Context {T : Type} `{Num T}.

  (* finders.py 307-324, nearest_neighbour; table as a function of (row, column) *)
  Definition nearest_neighbour {A} (x_axis y_axis : list T) (table : nat -> nat -> A)
      (x_input y_input : T) : A :=
    let x_output := argmin (map (fun a => nabs (a - x_input)) x_axis) in
    let y_output := argmin (map (fun a => nabs (a - y_input)) y_axis) in
    table y_output x_output.

  (* finders.py 378: np.arange(-5, 366, 10) *)
  Definition la_lookup_x : list T := map (fun k => nofZ (10 * Z.of_nat k - 5)) (seq 0 38).
  (* finders.py 380: np.arange(85, -86, -10) *)
  Definition la_lookup_y : list T := map (fun k => nofZ (85 - 10 * Z.of_nat k)) (seq 0 18).

  (* finders.py 382-386: numbers 1..648 in 36 columns of 18, with the last column repeated in
     front and the first one repeated behind *)
  Definition la_lookup_no (row col : nat) : nat :=
    let c := (if Nat.eqb col 0 then 35 else if Nat.eqb col 37 then 0 else col - 1)%nat in
    (18 * c + row + 1)%nat.

  (* finders.py 388-401 *)
  Definition ln_x0 (pn_float_long : T) : list T :=
    [pn_float_long + nq 1 100; pn_float_long + nq 1001 100; pn_float_long - nq 999 100;
     pn_float_long + nq 2001 100; pn_float_long - nq 1999 100].
  Definition ln_y (pn_float_lat : T) : list T :=
    [pn_float_lat + nq 1 100; pn_float_lat + nq 1001 100; pn_float_lat - nq 999 100;
     pn_float_lat + nq 2001 100; pn_float_lat - nq 1999 100].

  (* finders.py 404-417: entries 2 and 4 are wrapped when negative, 0, 1 and 3 when >= 360 *)
  Definition wrap_low (x : T) : T := if x <? 0 then x + nofZ 360 else x.
  Definition wrap_high (x : T) : T := if nofZ 360 <=? x then x - nofZ 360 else x.
  Definition ln_x (pn_float_long : T) : list T :=
    match ln_x0 pn_float_long with
    | [x0; x1; x2; x3; x4] => [wrap_high x0; wrap_high x1; wrap_low x2; wrap_high x3; wrap_low x4]
    | l => l
    end.

  (* finders.py 419-428: the 25 box numbers, latitude outside, longitude inside *)
  Definition box_numbers (pn_float_long pn_float_lat : T) : list nat :=
    flat_map (fun y => map (fun x => nearest_neighbour la_lookup_x la_lookup_y la_lookup_no x y)
                           (ln_x pn_float_long))
             (ln_y pn_float_lat).

  (* finders.py 327-435, find_25boxes; the table is the list of its rows *)
  Definition find_25boxes (pn_float_long pn_float_lat : T) (la_wmo_boxes : list (list T))
      : res (list (list T)) :=
    if negb (nisnan pn_float_long) && negb (nisnan pn_float_lat) then
      mapM (fun n => match nth_error la_wmo_boxes (n - 1) with
                     | Some row => Ok row
                     | None => Raise IndexError
                     end) (box_numbers pn_float_long pn_float_lat)
    else Ok (repeat (repeat nnan 4) 25).
End Boxes.

Section Thetas.
  Context {T : Type} `{Num T}.
  (* scipy.interpolate.interp1d(xs, ys)(x), unspecified *)
  Variable interp1d : list T -> list T -> T -> res T.

  (* the three matrices pres, sal, ptmp (and la_ptmp): rows = levels 0..nr-1 ("profile_no"),
     columns = profiles 0..nc-1 ("profile_depth") *)
  Definition mat := nat -> nat -> T.
  Definition mcol (nr : nat) (m : mat) (j : nat) : list T := map (fun i => m i j) (seq 0 nr).
  Definition mrow (nc : nat) (m : mat) (i : nat) : list T := map (fun j => m i j) (seq 0 nc).
  Definition mflat (nr nc : nat) (m : mat) : list T := flat_map (mrow nc m) (seq 0 nr).

  (* finders.py 491-551: an optional window bound is [] or a one-element array *)
  Definition discard (lt gt : option T) (x : T) : bool :=
    match lt, gt with
    | Some l, None => x >? l
    | None, Some g => x <? g
    | Some l, Some g => if l <? g then (x <? g) && (x >? l) else (x >? l) || (x <? g)
    | None, None => false
    end.

  Definition blank (p : nat -> nat -> bool) (m : mat) : mat :=
    fun i j => if p i j then nnan else m i j.

  (* finders.py 483-551: the three masking passes on (pres, sal, ptmp) *)
  Definition exclude (la_ptmp : mat) (theta_lt theta_gt pres_lt pres_gt : option T)
      (pst : mat * mat * mat) : mat * mat * mat :=
    let '(pres, sal, ptmp) := pst in
    let p1 := fun i j => nisnan (la_ptmp i j) in
    let '(pres, sal, ptmp) := (blank p1 pres, blank p1 sal, blank p1 ptmp) in
    let p2 := fun i j => discard theta_lt theta_gt (ptmp i j) in
    let '(pres, sal, ptmp) := (blank p2 pres, blank p2 sal, blank p2 ptmp) in
    let p3 := fun i j => discard pres_lt pres_gt (pres i j) in
    (blank p3 pres, blank p3 sal, blank p3 ptmp).

  (* np.arange on floats: ValueError when the length is not finite *)
  Definition np_arange (start stop step : T) : res (list T) :=
    let len := nceil ((stop - start) / step) in
    if nisfin len then
      Ok (map (fun k => start + nofZ (Z.of_nat k) * step) (seq 0 (Z.to_nat (ntoZ len))))
    else Raise ValueError.

  (* finders.py 553-569 *)
  Definition pres_levels (nr nc : nat) (pres ptmp : mat) : res (list T) :=
    if Nat.eqb nr 0 || Nat.eqb nc 0 then Raise ValueError           (* nanmin of nothing *)
    else
      let min_theta := nceil (nanmin (mflat nr nc ptmp) * nofZ 10) / nofZ 10 in
      let max_theta := nfloor (nanmax (mflat nr nc ptmp) * nofZ 10) / nofZ 10 in
      if min_theta <? max_theta then
        let max_pres := nanmax (mflat nr nc pres) in
        let min_pres := nanmin (mflat nr nc pres) in
        let* levels := np_arange min_pres max_pres (nofZ 50) in
        if Nat.ltb (length levels) 10 then
          np_arange min_pres max_pres (nfloor ((max_pres - min_pres) / nofZ 10))
        else Ok levels
      else Raise UnboundLocalError.

  (* finders.py 575-584: one entry of interp_t *)
  Definition interp_entry (nr : nat) (pres ptmp : mat) (pl : T) (j : nat) : res T :=
    let good := filter (fun i => negb (nisnan (pres i j)) && negb (nisnan (ptmp i j))) (seq 0 nr) in
    let gp := map (fun i => pres i j) good in
    match good with
    | [] => Ok nnan
    | _ => if (nanmax gp >? pl) && (pl >? nanmin gp)
           then interp1d gp (map (fun i => ptmp i j) good) pl else Ok nnan
    end.

  (* finders.py 591-595: one theta level *)
  Definition theta_level (row : list T) : T :=
    match drop_nan row with [] => nnan | l => mean l end.

  (* finders.py 605-618: the row nearest to a theta level in column j *)
  Definition theta_index (nr : nat) (ptmp : mat) (theta : T) (j : nat) : option nat :=
    let col := mcol nr ptmp j in
    if (nanmax col >? theta) && (theta >? nanmin col) then
      let diff := map (fun x => nabs (x - theta)) col in
      if forallb nisnan diff then None
      else match argwhere (fun d => d =? nanmin diff) diff with
           | i :: _ => Some i
           | [] => None                                             (* not reachable *)
           end
    else None.

  (* finders.py 625-674: salinity of column j at a theta level, given the nearest row ti *)
  Definition sal_at (nr : nat) (sal ptmp : mat) (theta : T) (j ti : nat) : res T :=
    let lo := (ti - 1)%nat in
    let hi := Nat.min (ti + 1) (nr - 1) in
    let interval := seq lo (hi + 1 - lo) in
    let diff := map (fun k => ptmp ti j - ptmp k j) interval in
    let near (p : T -> bool) (f : T -> T) : list nat :=
      match filter p diff with
      | [] => [ti]
      | s => let m := nanmin (map f s) in
             map snd (filter (fun dk => f (fst dk) =? m) (combine diff interval))
      end in
    let* k_index :=
      if ptmp ti j >? theta then Ok (near (fun d => d >? 0) (fun d => d))
      else if ptmp ti j <? theta then Ok (near (fun d => d <? 0) nopp)
      else if ptmp ti j =? theta then Ok [ti]
      else Raise UnboundLocalError in                               (* NaN: not reachable *)
    match k_index with
    | [k] =>
        if negb (Nat.eqb k ti) && negb (nisnan (sal ti j)) && negb (nisnan (sal k j))
           && negb (nisnan (ptmp ti j)) && negb (nisnan (ptmp k j))
        then interp1d [ptmp ti j; ptmp k j] [sal ti j; sal k j] theta
        else Ok (sal ti j)
    | _ => Raise ValueError                                         (* truth value of an array *)
    end.

  (* np.nanvar(x, ddof=1) of values without NaN *)
  Definition var1 (l : list T) : T := if Nat.leb (length l) 1 then nnan else var_ddof 1 l.

  (* finders.py 680-695: variances of the levels, with too rarely sampled levels blanked.  The
     index array bad is np.argwhere of an (L,1) matrix, so every row of it also contains the
     column number 0: level 0 is blanked together with any bad level. *)
  Definition blank_rare (use_percent_gt : T) (sal_temp : list (list T)) : list T :=
    let num_good := map (fun r => nofZ (Z.of_nat (length (drop_nan r)))) sal_temp in
    let var := map (fun r => var1 (drop_nan r)) sal_temp in
    let m := nanmax num_good in
    let percent := map (fun g => if negb (m =? 0) then g / m else nnan) num_good in
    let bad := argwhere (fun p => p <? use_percent_gt) percent in
    fold_left (fun v i => set_nth 0 nnan (set_nth i nnan v)) bad var.

  (* finders.py 699-707: repeated selection of the first minimum; a selection is the level *)
  Fixpoint select_min (k : nat) (var : list T) : list (option nat) :=
    match k with
    | O => []
    | S k' =>
        if forallb nisnan var then None :: select_min k' var
        else match argwhere (fun v => v =? nanmin var) var with
             | i :: _ => Some i :: select_min k' (set_nth i nnan var)
             | [] => None :: select_min k' var                      (* not reachable *)
             end
    end.

  Record thetas := mkThetas {
    t_levels : list T; p_levels : list T; th_index : list (list (option nat));
    var_sal_theta : list T; theta_levels : list T }.

  (* finders.py 442-709, find_10thetas; also returns the overwritten matrices *)
  Definition find_10thetas (nr nc : nat) (sal ptmp pres la_ptmp : mat)
      (theta_lt theta_gt pres_lt pres_gt : option T) (use_percent_gt : T)
      : res (thetas * (mat * mat * mat)) :=
    let '(pres, sal, ptmp) := exclude la_ptmp theta_lt theta_gt pres_lt pres_gt (pres, sal, ptmp) in
    let* levels := pres_levels nr nc pres ptmp in
    let* interp_t := mapM (fun pl => mapM (interp_entry nr pres ptmp pl) (seq 0 nc)) levels in
    let thetas := map theta_level interp_t in
    let indices := map (fun th => map (theta_index nr ptmp th) (seq 0 nc)) thetas in
    let* sal_temp :=
      mapM (fun ti => mapM (fun jo => match snd jo with
                                      | Some i => sal_at nr sal ptmp (fst ti) (fst jo) i
                                      | None => Ok nnan
                                      end) (combine (seq 0 nc) (snd ti)))
           (combine thetas indices) in
    let var := blank_rare use_percent_gt sal_temp in
    let sel := select_min 10 var in
    let pick {A} (d : A) (l : list A) := map (fun o => match o with Some i => nth i l d | None => d end) sel in
    Ok (mkThetas (pick nnan thetas) (pick nnan levels) (pick (repeat None nc) indices) var thetas,
        (pres, sal, ptmp)).
End Thetas.
