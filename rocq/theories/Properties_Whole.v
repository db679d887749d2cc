(* C138 *)
From Coq Require Import String Ascii.
From Coq Require Import ZArith List Bool Reals.
From Verif Require Import Num Np Utilities Finders Stats Topo Fetchers Spec_Fetchers Saf Helper MapProfile Mapping Spec_Stats Spec_FitCond Spec_Map Spec_Helper Spec_Interp
  Spec_MapLevel Spec_Mapping Spec_Bias Spec_Seam Spec_Whole Proofs_Whole2 Proofs_Whole3 Proofs_MapLevel Proofs_MappingEx Proofs_FetchersEx Proofs_BiasEx Proofs_SeamEx Proofs_WholeEx.
Import Helper Spec_Fetchers ListNotations.
Local Open Scope R_scope.

(* one level of the float: mapped exactly from what the chosen casts have at its temperature, near its pressure *)
Theorem C138_level : forall (rng : Type) (seed : Z -> rng) rand g0 qs inv np_interp sa ct tc interp2d tbase read_mat date_str cfg float_name,
  inv_ok inv -> forall large small, config_scales cfg large small -> scales_nonzero large -> scales_nonzero small ->
  soundings interp2d (s_pv large) -> mc_use_saf cfg <> 1%Z ->
  forall delta ex, mc_p_delta cfg = Fin delta -> mc_p_exclude cfg = Fin ex ->
  forall db, reads db read_mat -> forall other, excludes float_name other -> four_columns (mc_boxes cfg) ->
  forall fd, mappable_profile fd -> forall boxes, find_25boxes (fd_long fd) (fd_lat fd) (mc_boxes cfg) = Ok boxes ->
  forall l la da, fd_long fd = Fin l -> fd_lat fd = Fin la -> fd_date fd = Fin da -> 0 <= l < 360 ->
  let cs := region_casts db (mc_db cfg) other boxes in let limit := nadd (nanmax (fd_pres fd)) (map_p_delta (mc_db cfg)) in
  (forall c, In c cs -> number (c_lat c)) ->
  forall pos, located l pos cs -> ~ all_beyond (map pos cs) (map pos cs) ->
  forall s i lev, get_float_data s i = Ok fd ->
  profile_levels seed rand g0 qs inv np_interp sa ct tc interp2d tbase read_mat date_str cfg float_name s i = Ok lev ->
  exists z depths index, depths_of interp2d cs depths /\
    search seed rand g0 qs cfg fd (Fin l) (Fin z) (offered date_str cs (map (fun c => Fin (pos c)) cs) depths) = Ok index /\
    forall c0 rest, selected index cs = c0 :: rest -> Spec_Fetchers.levels limit c0 <> [] ->
    let chosen := filter (has_data limit) (selected index cs) in ~ all_beyond (map pos (selected index cs)) (map pos chosen) ->
    forall n xs xt xp, nth_error (fd_sal fd) n = Some xs -> nth_error (fd_ptmp fd) n = Some xt -> nth_error (fd_pres fd) n = Some xp ->
    match Spec_Interp.complete xs xt xp with
    | None => lev n = Ok None
    | Some (_, t, p) =>
        (p < ex -> lev n = Ok None) /\
        (ex <= p -> exists pts, points_from date_str limit pos t p delta (combine chosen (map (fun k => nth k depths nnan) index)) pts /\
           ((length pts <= 5)%nat -> lev n = Ok None) /\
           ((5 < length pts)%nat -> forall nv, noise_estimate (Spec_MapLevel.kept pts) nv -> 0 < nv ->
              exists value err o, two_stage large small nv (mkPoint la l da z) (Spec_MapLevel.kept pts) value err /\ lev n = Ok (Some o) /\
                lo_ptmp o = Fin t /\ lo_sal o = Fin value /\ lo_err o = Fin err /\ lo_noise o = Fin nv /\ lo_signal o = Fin (pop_var (map hp_sal (Spec_MapLevel.kept pts))) /\
                exists turn, (turn = 0 \/ turn = 360) /\ lo_points o = map (fun q => (Fin (hp_long q + turn), Fin (hp_lat q))) (Spec_MapLevel.kept pts)))
    end.
Proof. exact @whole_level. Qed.
Print Assumptions C138_level.
(* and the entries of the file of a first run are those of the levels *)
Theorem C138_file : forall qs, sorting qs -> forall cwd paths calc cfg float_dir float_name src rs st st' d,
  src_no src = map Fin rs -> increasing rs -> st (load_path cwd paths float_dir float_name) = None ->
  update_salinity_mapping qs calc cwd paths cfg src float_dir float_name st = (Ok tt, st') ->
  st' (save_path cwd paths float_name) = Some d ->
  la_profile_no d = map Fin rs /\
  forall i, (i < length rs)%nat -> exists lev, calc src i = Ok lev /\
  forall n, (n < src_levels src)%nat -> exists o, lev n = Ok o /\
  forall m f, In (m, f) (contents d) -> nth n (nth i (m_cols m) []) NaN = match o with Some o => f o | None => NaN end.
Proof. exact @file_levels. Qed.
Print Assumptions C138_file.
(* a level mapped from six casts *)
Example C138_witness : reads six_db six_read /\ excludes "3901960"%string demo_other /\ get_float_data six_source 0 = Ok six_float /\ exists box boxes,
  find_25boxes (fd_long six_float) (fd_lat six_float) (mc_boxes (six_cfg box)) = Ok boxes /\
  let cs := region_casts six_db (mc_db (six_cfg box)) demo_other boxes in
  cs = map six_cast (seq 0 6) /\ located 10 (fun _ => 10) cs /\ ~ all_beyond (map (fun _ => 10) cs) (map (fun _ => 10) cs) /\
  search (fun _ => tt) (fun _ n => (repeat (Fin 0) n, tt)) tt argsort (six_cfg box) six_float (Fin 10) (Fin 4000)
    (offered six_date cs (map (fun _ => Fin 10) cs) (repeat (Fin 4000) 6)) = Ok (seq 0 6) /\
  nadd (nanmax (fd_pres six_float)) (map_p_delta (mc_db (six_cfg box))) = Fin 1250 /\
  filter (has_data (Fin 1250)) (selected (seq 0 6) cs) = cs /\
  points_from six_date (Fin 1250) (fun _ => 10) 6 1000 250 (combine cs (map (fun k => nth k (repeat (Fin 4000) 6) nnan) (seq 0 6))) six /\
  length six = 6%nat.
Proof. split; [exact six_reads|]. split; [exact demo_excludes|]. split; [reflexivity|]. exact six_whole. Qed.
Example C138_noise_witness : noise_estimate (Spec_MapLevel.kept six) (1 / 2).
Proof. rewrite six_kept. exact six_noise. Qed.
Example C138_levels_witness : exists box lev o, six_levels box six_source 0 = Ok lev /\ lev 0%nat = Ok None /\ lev 1%nat = Ok (Some o) /\ lo_noise o = Fin (1 / 2) /\ lo_points o <> [].
Proof. exact six_profile. Qed.
Example C138_file_witness : exists box read st' d, positions_known read /\ six_mapping box read (fun _ => None) = (Ok tt, st') /\
  st' (save_path [] demo_paths "3901960"%string) = Some d /\ positive_noise d /\ nth 1 (nth 0 (m_cols (la_mapped_sal d)) []) NaN = Fin 35.
Proof. exact six_mapped. Qed.
