(* What the mapping of one level is meant to compute *)
From Coq Require Import ZArith List Bool Reals.
From Verif Require Import Num Np Stats LinR Spec_Finders Spec_Stats Spec_FitCond Spec_Map Helper Spec_Helper MapProfile.
From Verif Require Utilities Fetchers Spec_Fetchers.
Import ListNotations.
Local Open Scope R_scope.

(* a historical cast at the level, all values known *)
Definition known (q : hpoint R) : hpoint XR :=
  mkHpoint (Fin (hp_sal q)) (Fin (hp_pres q)) (Fin (hp_long q)) (Fin (hp_lat q)) (Fin (hp_date q)) (Fin (hp_z q)).
Definition place (q : hpoint R) : point R := mkPoint (hp_lat q) (hp_long q) (hp_date q) (hp_z q).
Definition observed (q : hpoint R) : station := mkStation (Some (hp_sal q)) (hp_lat q) (hp_long q).

(* the casts within three standard deviations of the mean *)
Definition kept (l : list (hpoint R)) : list (hpoint R) :=
  let sal := map hp_sal l in
  filter (fun q => if Rle_dec (Rabs (hp_sal q - rmean sal)) (3 * rsd sal) then true else false) l.

(* the scales of the configuration *)
Definition config_scales (cfg : map_config XR) (large small : scales) : Prop :=
  mc_lat_large cfg = Fin (s_lat large) /\ mc_long_large cfg = Fin (s_long large) /\
  mc_age_large cfg = Fin (s_age large) /\ mc_phi_large cfg = Fin (s_phi large) /\
  mc_lat_small cfg = Fin (s_lat small) /\ mc_long_small cfg = Fin (s_long small) /\
  mc_age_small cfg = Fin (s_age small) /\ mc_phi_small cfg = Fin (s_phi small) /\
  s_pv small = s_pv large /\ mc_use_pv cfg = (if s_pv large then 1%Z else 0%Z).

(* res are the salinities minus the best estimates of the field at the casts themselves *)
Definition residual_of (s : scales) (sv nv : R) (data : list (point R)) (sal res : list R) : Prop :=
  length res = length sal /\
  forall i, (i < length data)%nat -> exists w, best_weights s sv nv data (cast data i) w /\
    nth i res 0 = nth i sal 0 - estimate w sal.

(* the level: the field is estimated with the large scales, then the residuals with the small ones *)
Definition two_stage (large small : scales) (nv : R) (g : point R) (l : list (hpoint R)) (value err : R) : Prop :=
  let data := map place l in let sal := map hp_sal l in
  exists w w' res,
    best_weights large (pop_var sal) nv data g w /\
    residual_of large (pop_var sal) nv data sal res /\
    best_weights small (pop_var res) nv data g w' /\
    value = estimate w sal + estimate w' res /\
    err = sqrt (mean_square_error large (pop_var sal) nv data g w + mean_square_error small (pop_var res) nv data g w').

(* np.linalg.inv on a matrix of zeros *)
Definition inv_zero (inv : nat -> (nat -> nat -> XR) -> res (nat -> nat -> XR)) : Prop :=
  forall n A, (0 < n)%nat -> finmat n n A (fun _ _ => 0) -> inv n A = Raise LinAlgError.

(* a cast with its salinity shifted *)
Definition shifted (c : R) (q : hpoint R) : hpoint R :=
  mkHpoint (hp_sal q + c) (hp_pres q) (hp_long q) (hp_lat q) (hp_date q) (hp_z q).

(* the positions of a profile with enough data: known, and a pressure below the first entry *)
Definition mappable_profile {T} `{Num T} (fd : float_data T) : Prop :=
  nisnan (fd_long fd) = false /\ nisnan (fd_lat fd) = false /\
  exists i, (0 < i < length (fd_pres fd))%nat /\ nisnan (nth i (fd_pres fd) nnan) = false.

(* the noise of the casts: half the mean squared difference to the nearest cast elsewhere *)
Definition dhpoint : hpoint R := mkHpoint 0 0 0 0 0 0.
Definition noise_estimate (l : list (hpoint R)) (nv : R) : Prop :=
  exists nn : nat -> nat, (forall i, (i < length l)%nat -> nearest (map observed l) i (nn i)) /\
    nv = mean_of (map (fun i => (hp_sal (nth i l dhpoint) - hp_sal (nth (nn i) l dhpoint)) ^ 2) (seq 0 (length l))) / 2.

(* z holds, in the order of the casts, the depth of the sea floor at each of them *)
Definition depths_of {T} `{Num T} (interp2d : list T -> list T -> list (list Z) -> T -> T -> res T)
    (cs : list (Spec_Fetchers.cast T)) (z : list T) : Prop :=
  length z = length cs /\
  exists x y elev, forall i c, nth_error cs i = Some c ->
    exists e, interp2d x y elev (tbase_long (nth i (Utilities.wrap_longitude (map Spec_Fetchers.c_long cs)) nnan)) (Spec_Fetchers.c_lat c) = Ok e /\
      nth i z nnan = nmul (nofZ (-1)) e.
