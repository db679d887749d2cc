(* What a mapping needs so that it completes *)
From Coq Require Import String Ascii.
From Coq Require Import ZArith List Bool Reals.
From Verif Require Import Num Np Utilities Finders Stats Fetchers Spec_Fetchers Helper MapProfile Spec_Finders Spec_Stats Spec_Map Spec_Depth Spec_Helper Spec_Interp Spec_MapLevel Spec_Seam Spec_Whole.
Import Helper ListNotations.
Local Open Scope R_scope.

(* assumed of scipy.interpolate.interp2d: at a position it gives a number *)
Definition answers (interp2d : list XR -> list XR -> list (list Z) -> XR -> XR -> res XR) : Prop :=
  forall x y e a b, exists r, interp2d x y e a b = Ok (Fin r).

(* a cast on the map, with two complete samples above the limit and none as warm as the next *)
Definition good_cast (limit : XR) (c : Spec_Fetchers.cast XR) : Prop :=
  (exists lo la, Spec_Fetchers.c_long c = Fin lo /\ Spec_Fetchers.c_lat c = Fin la /\ on_map lo la) /\
  (2 <= length (cast_samples limit c))%nat /\
  forall k, (S k < length (cast_samples limit c))%nat -> sloped (cast_samples limit c) k.

(* a cast inside the large ellipse around a float at l, la *)
Definition near_cast (large : scales) (l la : R) (pos : Spec_Fetchers.cast XR -> R) (c : Spec_Fetchers.cast XR) : Prop :=
  exists lc, Spec_Fetchers.c_lat c = Fin lc /\ ((pos c - l) / (3 * s_long large)) ^ 2 + ((lc - la) / (3 * s_lat large)) ^ 2 < 1.

Section Ready.
  Context {rng : Type}.
  Variable seed : Z -> rng.
  Variable rand : rng -> nat -> list XR * rng.
  Variable g0 : rng.
  Variable qs : list XR -> list nat.
  Variable interp2d : list XR -> list XR -> list (list Z) -> XR -> XR -> res XR.
  Variable date_str : XR -> list ascii.
  Variable cfg : map_config XR.
  Variable large : scales.
  Variables delta ex : R.
  Variable db : database XR.
  Variable other : string -> bool.
  (* the points from which a level at temperature t and pressure p is mapped, after a search that
     found the casts of index *)
  Definition level_points (fd : float_data XR) (cs : list (Spec_Fetchers.cast XR)) (pos : Spec_Fetchers.cast XR -> R) (t p : R) (pts : list (hpoint R)) : Prop :=
    exists l z depths index, fd_long fd = Fin l /\ depths_of interp2d cs depths /\
      search seed rand g0 qs cfg fd (Fin l) (Fin z) (offered date_str cs (map (fun c => Fin (pos c)) cs) depths) = Ok index /\
      points_from date_str (nadd (nanmax (fd_pres fd)) (map_p_delta (mc_db cfg))) pos t p delta
                  (combine (selected index cs) (map (fun k => nth k depths nnan) index)) pts.
  (* the levels of a profile that are mapped if there are casts *)
  Definition mapped_at (fd : float_data XR) (n : nat) (t p : R) : Prop :=
    (exists s, nth_error (fd_sal fd) n = Some (Fin s)) /\ nth_error (fd_ptmp fd) n = Some (Fin t) /\ nth_error (fd_pres fd) n = Some (Fin p) /\ ex <= p.
  (* a profile of the float, with the casts around it *)
  Definition ready (fd : float_data XR) (cs : list (Spec_Fetchers.cast XR)) (pos : Spec_Fetchers.cast XR -> R) : Prop :=
    mappable_profile fd /\ (exists da, fd_date fd = Fin da) /\ length (fd_ptmp fd) = length (fd_sal fd) /\ length (fd_pres fd) = length (fd_sal fd) /\
    exists l la, fd_long fd = Fin l /\ fd_lat fd = Fin la /\ 0 <= l < 360 /\ on_map l la /\
      (forall boxes, find_25boxes (fd_long fd) (fd_lat fd) (mc_boxes cfg) = Ok boxes -> cs = region_casts db (mc_db cfg) other boxes) /\
      located l pos cs /\ ~ all_beyond (map pos cs) (map pos cs) /\
      Forall (good_cast (nadd (nanmax (fd_pres fd)) (map_p_delta (mc_db cfg)))) cs /\ Exists (near_cast large l la pos) cs /\
      (* the casts found are not all on the other side of Greenwich *)
      (forall z depths index, depths_of interp2d cs depths ->
         search seed rand g0 qs cfg fd (Fin l) (Fin z) (offered date_str cs (map (fun c => Fin (pos c)) cs) depths) = Ok index ->
         ~ all_beyond (map pos (selected index cs)) (map pos (selected index cs))) /\
      (* the salinities at a level have a scatter *)
      (forall n t p pts, mapped_at fd n t p -> level_points fd cs pos t p pts -> (5 < length pts)%nat ->
         exists nv, noise_estimate (Spec_MapLevel.kept pts) nv /\ 0 < nv).
End Ready.
