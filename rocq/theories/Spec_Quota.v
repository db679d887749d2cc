(* When the number of reference casts is not limited *)
From Coq Require Import String Ascii.
From Coq Require Import ZArith List Bool.
From Verif Require Import Num Np Utilities Finders Stats Topo Fetchers Saf MapProfile.
Import ListNotations.
Local Open Scope num_scope.

Section Spec.
  Context {T : Type} `{Num T} `{NumT T}.
  (* the configuration with another MAX_CASTS, with another MAP_P_EXCLUDE *)
  Definition with_quota (m : Z) (c : map_config T) : map_config T :=
    mkMapConfig (mc_boxes c) m (mc_use_pv c) (mc_use_saf c) (mc_long_large c) (mc_long_small c) (mc_lat_large c) (mc_lat_small c)
      (mc_phi_large c) (mc_phi_small c) (mc_age_large c) (mc_age_small c) (mc_p_delta c) (mc_p_exclude c) (mc_saf c) (mc_db c).
  Definition with_exclude (e : T) (c : map_config T) : map_config T :=
    mkMapConfig (mc_boxes c) (mc_max_casts c) (mc_use_pv c) (mc_use_saf c) (mc_long_large c) (mc_long_small c) (mc_lat_large c) (mc_lat_small c)
      (mc_phi_large c) (mc_phi_small c) (mc_age_large c) (mc_age_small c) (mc_p_delta c) e (mc_saf c) (mc_db c).

  Variable interp2d : list T -> list T -> list (list Z) -> T -> T -> res T.
  Variable tbase : binfile.
  Variable read_mat : string -> res (ref_data T).
  Variable date_str : T -> list ascii.
  Variable cfg : map_config T.
  Variable float_name : string.
  (* the potential vorticity as it enters the ellipse *)
  Definition vorticity (lat z : T) : res T := if Z.eqb (mc_use_pv cfg) 1 then potential_vorticity lat z else Ok 0.
  (* a cast at a latitude, longitude and depth is in the large ellipse around a float *)
  Definition in_reach (fd : float_data T) (long z : T) (c : T * T * T) : bool :=
    let '(clat, clong, cz) := c in
    match vorticity (fd_lat fd) z, vorticity clat cz with
    | Ok pf, Ok pc => match find_ellipse clong long (mc_long_large cfg) clat (fd_lat fd) (mc_lat_large cfg) (mc_phi_large cfg) pc pf with
                      | Ok e => e <? 1 | Raise _ => false end
    | _, _ => false
    end.
  (* at most m casts of the 25 boxes are in the ellipse *)
  Definition at_most (m : Z) (fd : float_data T) : Prop :=
    forall boxes lats longs dates depths el, find_25boxes (fd_long fd) (fd_lat fd) (mc_boxes cfg) = Ok boxes ->
    get_region_hist_locations read_mat date_str boxes float_name (mc_db cfg) = Ok (lats, longs, dates) ->
    grid_depths interp2d tbase longs lats = Ok depths ->
    elevation interp2d tbase (tbase_long (fd_long fd) - 1) (tbase_long (fd_long fd) + 1) (fd_lat fd - 1) (fd_lat fd + 1)
      [(tbase_long (fd_long fd), fd_lat fd)] = Ok el ->
    (Z.of_nat (length (filter (in_reach fd (wrap_float longs (fd_long fd)) (nopp (hd nnan el))) (combine (combine lats longs) depths))) <= m)%Z.
End Spec.
