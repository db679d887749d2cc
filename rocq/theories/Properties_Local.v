(* C146 *)
From Coq Require Import String Ascii.
From Coq Require Import ZArith List Bool Reals.
From Verif Require Import Num Np Utilities Finders Stats Topo Fetchers Spec_Fetchers Saf Helper MapProfile Spec_Stats Spec_FitCond Spec_Map Spec_Helper Spec_Interp
  Spec_MapLevel Spec_Bias Spec_Seam Spec_Whole Spec_Local Proofs_FetchersEx Proofs_BiasEx Proofs_SeamEx Proofs_Local2 Proofs_LocalEx.
Import Helper Spec_Fetchers ListNotations.
Local Open Scope R_scope.

(* a level is mapped from the casts in the large ellipse, at the depth 0 or any other *)
Theorem C146_level : forall (rng : Type) (seed : Z -> rng) rand g0 qs inv np_interp sa ct tc interp2d tbase date_str cfg float_name,
  inv_ok inv -> forall large small, config_scales cfg large small -> scales_nonzero large -> scales_nonzero small -> s_pv large = false ->
  soundings interp2d (s_pv large) -> mc_use_saf cfg <> 1%Z ->
  forall delta ex, mc_p_delta cfg = Fin delta -> mc_p_exclude cfg = Fin ex ->
  forall other, excludes float_name other -> four_columns (mc_boxes cfg) ->
  forall fd, mappable_profile fd -> forall boxes, find_25boxes (fd_long fd) (fd_lat fd) (mc_boxes cfg) = Ok boxes ->
  forall l la da, fd_long fd = Fin l -> fd_lat fd = Fin la -> fd_date fd = Fin da -> 0 <= l < 360 ->
  forall pos db read_mat, reads db read_mat ->
  let limit := nadd (nanmax (fd_pres fd)) (map_p_delta (mc_db cfg)) in
  let cs := region_casts db (mc_db cfg) other boxes in
  let inside := filter (near l la large pos) cs in
  (forall c, In c cs -> number (c_lat c)) -> located l pos cs -> ~ all_beyond (map pos cs) (map pos cs) ->
  (Z.of_nat (length inside) <= mc_max_casts cfg)%Z ->
  forall s i lev, get_float_data s i = Ok fd ->
  profile_levels seed rand g0 qs inv np_interp sa ct tc interp2d tbase read_mat date_str cfg float_name s i = Ok lev ->
  forall c0 rest, filter loadable inside = c0 :: rest -> Spec_Fetchers.levels limit c0 <> [] ->
  let chosen := filter (has_data limit) (filter loadable inside) in
  ~ all_beyond (map pos (filter loadable inside)) (map pos chosen) ->
  forall n xs xt xp, nth_error (fd_sal fd) n = Some xs -> nth_error (fd_ptmp fd) n = Some xt -> nth_error (fd_pres fd) n = Some xp ->
  match Spec_Interp.complete xs xt xp with
  | None => lev n = Ok None
  | Some (_, t, p) =>
      (p < ex -> lev n = Ok None) /\
      (ex <= p -> exists pts, points_from date_str limit pos t p delta (map (fun c => (c, Fin 0)) chosen) pts /\
         ((length pts <= 5)%nat -> lev n = Ok None) /\
         ((5 < length pts)%nat -> forall nv, noise_estimate (Spec_MapLevel.kept pts) nv -> 0 < nv ->
            exists value err o, two_stage large small nv (mkPoint la l da 0) (Spec_MapLevel.kept pts) value err /\ lev n = Ok (Some o) /\
              lo_ptmp o = Fin t /\ lo_sal o = Fin value /\ lo_err o = Fin err /\ lo_noise o = Fin nv /\ lo_signal o = Fin (pop_var (map hp_sal (Spec_MapLevel.kept pts))) /\
              exists turn, (turn = 0 \/ turn = 360) /\ lo_points o = map (fun q => (Fin (hp_long q + turn), Fin (hp_lat q))) (Spec_MapLevel.kept pts)))
  end.
Proof. exact @level_near. Qed.
Print Assumptions C146_level.
(* two databases with the same casts in the ellipse *)
Theorem C146_elsewhere : forall (rng : Type) (seed : Z -> rng) rand g0 qs inv np_interp sa ct tc interp2d tbase date_str cfg float_name,
  inv_ok inv -> forall large small, config_scales cfg large small -> scales_nonzero large -> scales_nonzero small -> s_pv large = false ->
  soundings interp2d (s_pv large) -> mc_use_saf cfg <> 1%Z ->
  forall delta ex, mc_p_delta cfg = Fin delta -> mc_p_exclude cfg = Fin ex ->
  forall other, excludes float_name other -> four_columns (mc_boxes cfg) ->
  forall fd, mappable_profile fd -> forall boxes, find_25boxes (fd_long fd) (fd_lat fd) (mc_boxes cfg) = Ok boxes ->
  forall l la da, fd_long fd = Fin l -> fd_lat fd = Fin la -> fd_date fd = Fin da -> 0 <= l < 360 ->
  forall pos db read_mat db' read_mat', reads db read_mat -> reads db' read_mat' ->
  let limit := nadd (nanmax (fd_pres fd)) (map_p_delta (mc_db cfg)) in
  let cs := region_casts db (mc_db cfg) other boxes in let cs' := region_casts db' (mc_db cfg) other boxes in
  let inside := filter (near l la large pos) cs in
  (forall c, In c cs -> number (c_lat c)) -> (forall c, In c cs' -> number (c_lat c)) -> located l pos cs -> located l pos cs' ->
  ~ all_beyond (map pos cs) (map pos cs) -> ~ all_beyond (map pos cs') (map pos cs') ->
  inside = filter (near l la large pos) cs' -> (Z.of_nat (length inside) <= mc_max_casts cfg)%Z ->
  forall s i lev lev', get_float_data s i = Ok fd ->
  profile_levels seed rand g0 qs inv np_interp sa ct tc interp2d tbase read_mat date_str cfg float_name s i = Ok lev ->
  profile_levels seed rand g0 qs inv np_interp sa ct tc interp2d tbase read_mat' date_str cfg float_name s i = Ok lev' ->
  forall c0 rest, filter loadable inside = c0 :: rest -> Spec_Fetchers.levels limit c0 <> [] ->
  let chosen := filter (has_data limit) (filter loadable inside) in
  ~ all_beyond (map pos (filter loadable inside)) (map pos chosen) ->
  forall n xs xt xp, nth_error (fd_sal fd) n = Some xs -> nth_error (fd_ptmp fd) n = Some xt -> nth_error (fd_pres fd) n = Some xp ->
  (forall sv t p pts, Spec_Interp.complete xs xt xp = Some (sv, t, p) -> points_from date_str limit pos t p delta (map (fun c => (c, Fin 0)) chosen) pts ->
     (5 < length pts)%nat -> exists nv, noise_estimate (Spec_MapLevel.kept pts) nv /\ 0 < nv) ->
  same_outcome (lev n) (lev' n) \/ same_outcome (lev' n) (lev n).
Proof. exact @level_same. Qed.
Print Assumptions C146_elsewhere.
(* six casts near the float, and a seventh at 40 N *)
Example C146_witness : exists box boxes, find_25boxes (fd_long six_float) (fd_lat six_float) (mc_boxes (six_cfg box)) = Ok boxes /\
  region_casts (far_db []) (mc_db (six_cfg box)) demo_other boxes = map six_cast (seq 0 6) /\
  region_casts (far_db [40%nat]) (mc_db (six_cfg box)) demo_other boxes = map six_cast (seq 0 6 ++ [40%nat]) /\
  exists lev lev' value err o, far_levels box [] six_source 0 = Ok lev /\ far_levels box [40%nat] six_source 0 = Ok lev' /\
    lev' 1%nat = Ok (Some o) /\ lo_sal o = Fin value /\ lo_err o = Fin err /\ (same_outcome (lev 1%nat) (lev' 1%nat) \/ same_outcome (lev' 1%nat) (lev 1%nat)).
Proof. exact far_example. Qed.
Example C146_inside_witness : filter (near 10 2 six_large (fun _ => 10)) (map six_cast (seq 0 6 ++ [40%nat])) = map six_cast (seq 0 6).
Proof. apply far_near. intros i [<-|[]]. split; repeat constructor. Qed.
