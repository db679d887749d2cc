(* C137: longitudes around Greenwich *)
From Coq Require Import String Ascii.
From Coq Require Import ZArith List Bool Reals.
From Verif Require Import Num Np Utilities Finders Stats Wrangling Topo Fetchers Spec_Fetchers Saf Helper MapProfile Spec_MapLevel Spec_Utilities Spec_Seam
  Proofs_FetchersEx Proofs_BiasEx Proofs_Seam4 Proofs_SeamEx.
Import Helper Stats Spec_Fetchers ListNotations.
Local Open Scope R_scope.

(* ---- C137 ---- *)
(* the differences of longitude between the float and the casts are the true ones exactly when the
   casts are not all beyond Greenwich *)
Theorem C137_differences : forall l xs rs, 0 <= l < 360 -> Forall2 (recorded_as l) xs rs -> exists ws f,
  wrap_longitude (map Fin rs) = map Fin ws /\ wrap_float (map Fin ws) (Fin l) = Fin f /\ length ws = length xs /\
  (~ all_beyond xs xs <-> forall n, (n < length xs)%nat -> f - nth n ws 0 = l - nth n xs 0).
Proof. exact differences. Qed.
Print Assumptions C137_differences.
(* then the casts are selected as for the true places *)
Theorem C137_selection : forall (rng : Type) (seed : Z -> rng) rand g0 qs np_interp sa ct tc interp2d tbase read_mat date_str cfg float_name,
  forall db, reads db read_mat -> forall other, excludes float_name other -> four_columns (mc_boxes cfg) ->
  forall fd, mappable_profile fd -> forall boxes, find_25boxes (fd_long fd) (fd_lat fd) (mc_boxes cfg) = Ok boxes ->
  forall l, fd_long fd = Fin l -> 0 <= l < 360 ->
  forall z g pos, mc_use_saf cfg <> 1%Z -> let cs := region_casts db (mc_db cfg) other boxes in
  located l pos cs -> ~ all_beyond (map pos cs) (map pos cs) ->
  best_history seed rand g0 qs np_interp sa ct tc interp2d tbase read_mat date_str cfg float_name fd z = Ok g ->
  exists depths index, depths_of interp2d cs depths /\ gr_z g = map (fun i => nth i depths nnan) index /\
    search seed rand g0 qs cfg fd (Fin l) z (offered date_str cs (map (fun c => Fin (pos c)) cs) depths) = Ok index.
Proof. exact @selection_seam. Qed.
Print Assumptions C137_selection.
(* and the levels are mapped as for the true places *)
Theorem C137_levels : forall (rng : Type) (seed : Z -> rng) rand g0 qs inv np_interp sa ct tc interp2d tbase read_mat date_str cfg float_name,
  forall db, reads db read_mat -> forall other, excludes float_name other -> four_columns (mc_boxes cfg) ->
  forall fd, mappable_profile fd -> forall boxes, find_25boxes (fd_long fd) (fd_lat fd) (mc_boxes cfg) = Ok boxes ->
  forall l, fd_long fd = Fin l -> 0 <= l < 360 ->
  forall s i lev pos, get_float_data s i = Ok fd -> mc_use_saf cfg <> 1%Z -> let cs := region_casts db (mc_db cfg) other boxes in
  located l pos cs -> ~ all_beyond (map pos cs) (map pos cs) ->
  profile_levels seed rand g0 qs inv np_interp sa ct tc interp2d tbase read_mat date_str cfg float_name s i = Ok lev ->
  exists z g depths index interp,
    best_history seed rand g0 qs np_interp sa ct tc interp2d tbase read_mat date_str cfg float_name fd z = Ok g /\
    depths_of interp2d cs depths /\ gr_z g = map (fun i => nth i depths nnan) index /\
    search seed rand g0 qs cfg fd (Fin l) z (offered date_str cs (map (fun c => Fin (pos c)) cs) depths) = Ok index /\
    interp_climatology (to_array2 (gr_sal g)) (to_array2 (gr_ptmp g)) (to_array2 (gr_pres g))
      (combine (combine (fd_sal fd) (fd_ptmp fd)) (fd_pres fd)) = Ok interp /\
    let limit := nadd (nanmax (fd_pres fd)) (map_p_delta (mc_db cfg)) in
    forall c0 rest, selected index cs = c0 :: rest -> Spec_Fetchers.levels limit c0 <> [] ->
    let kept := filter (has_data limit) (selected index cs) in ~ all_beyond (map pos (selected index cs)) (map pos kept) ->
    forall n sal pres, nth_error (fd_sal fd) n = Some sal -> nth_error (fd_pres fd) n = Some pres -> nisnan sal = false ->
    nleb (mc_p_exclude cfg) pres = true ->
    same_outcome (lev n)
      (let* h := process_profile_hist_variables (map (fun c => Fin (pos c)) kept) (gr_lat g) (gr_dates g) (gr_z g) pres
                   (nth n interp []) (mc_p_delta cfg) in
       map_level inv cfg (mkPoint (fd_lat fd) (Fin l) (fd_date fd) z) (nth n (fd_ptmp fd) nnan) h).
Proof. exact @levels_seam. Qed.
Print Assumptions C137_levels.
(* when every cast of the region is beyond Greenwich the profile is not mapped: the run fails *)
Theorem C137_lost : forall (rng : Type) (seed : Z -> rng) rand g0 qs np_interp sa ct tc interp2d tbase read_mat date_str cfg float_name,
  forall db, reads db read_mat -> forall other, excludes float_name other -> four_columns (mc_boxes cfg) ->
  forall fd, mappable_profile fd -> forall boxes, find_25boxes (fd_long fd) (fd_lat fd) (mc_boxes cfg) = Ok boxes ->
  forall l, fd_long fd = Fin l -> 0 <= l < 360 ->
  forall z g pos s, mc_long_large cfg = Fin s -> Rabs s <= 100 -> mc_use_saf cfg <> 1%Z -> let cs := region_casts db (mc_db cfg) other boxes in
  located l pos cs -> none_near (map pos cs) ->
  best_history seed rand g0 qs np_interp sa ct tc interp2d tbase read_mat date_str cfg float_name fd z <> Ok g.
Proof. exact @history_lost. Qed.
Print Assumptions C137_lost.
(* a float at 5 E among casts at 10 W and 5 W is taken to be 345 and 350 degrees away from them *)
Theorem C137_same_side_refuted : exists l xs rs, 0 <= l < 360 /\ Forall2 (recorded_as l) xs rs /\
  exists ws f, wrap_longitude (map Fin rs) = map Fin ws /\ wrap_float (map Fin ws) (Fin l) = Fin f /\
  f - nth 0 ws 0 = -345 /\ l - nth 0 xs 0 = 15.
Proof. exact other_side_of_greenwich. Qed.
Print Assumptions C137_same_side_refuted.
Example C137_witness : Forall2 (recorded_as 5) [-5; 3] [355; 3] /\ ~ all_beyond [-5; 3] [-5; 3].
Proof. exact two_sides_recorded. Qed.
Example C137_selection_witness : exists box boxes, find_25boxes (fd_long six_float) (fd_lat six_float) (mc_boxes (six_cfg box)) = Ok boxes /\
  mappable_profile six_float /\ get_float_data six_source 0 = Ok six_float /\ (exists lev o, six_levels box six_source 0 = Ok lev /\ lev 1%nat = Ok (Some o)) /\
  let cs := region_casts six_db (mc_db (six_cfg box)) demo_other boxes in
  cs <> [] /\ located 10 (fun _ => 10) cs /\ ~ all_beyond (map (fun _ => 10) cs) (map (fun _ => 10) cs).
Proof. exact six_at_ten. Qed.
Example C137_lost_witness : reads six_db six_read /\ excludes "3901960"%string demo_other /\ exists box boxes,
  find_25boxes (fd_long far_float) (fd_lat far_float) (mc_boxes (six_cfg box)) = Ok boxes /\ mappable_profile far_float /\
  let cs := region_casts six_db (mc_db (six_cfg box)) demo_other boxes in
  located 355 (fun _ => 370) cs /\ none_near (map (fun _ => 370) cs).
Proof. split; [exact six_reads|]. split; [exact demo_excludes|]. exact six_at_355. Qed.
