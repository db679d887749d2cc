(* Longitudes around the meridian of Greenwich *)
From Coq Require Import Ascii ZArith List Bool Reals.
From Verif Require Import Num Utilities Finders MapProfile Spec_Utilities Spec_Fetchers.
Import ListNotations.
Local Open Scope R_scope.

(* x is a longitude in the five columns of boxes around a float at longitude l: the column of the
   float (taken a hundredth of a degree further east) and two on both sides.  x is counted from the
   float, without jump at Greenwich: it may be negative or greater than 360. *)
Definition in_columns (l x : R) : Prop :=
  exists k : Z, 10 * IZR k <= l + 1 / 100 < 10 * IZR k + 10 /\ 10 * IZR k - 20 <= x <= 10 * IZR k + 30.
(* the recorded longitude of a cast at x *)
Definition recorded_as (l : R) (x r : R) : Prop := in_columns l x /\ same_meridian r x /\ -360 <= r < 360.
(* The casts at xs are on the other side of Greenwich only: west of it, at least one of them, with a
   float east of it; or east of it, at least one of them, and none within 40 degrees west of it.
   ks are those of them that have data. *)
Definition all_beyond (xs ks : list R) : Prop :=
  ((exists x, In x xs /\ x < 0) /\ forall x, In x ks -> x <= 0) \/
  ((exists x, In x xs /\ 360 <= x) /\ forall x, In x xs -> x < 320 \/ 360 <= x).
(* every one of them *)
Definition none_near (xs : list R) : Prop :=
  ((exists x, In x xs /\ x < 0) /\ forall x, In x xs -> x <= 0) \/ (xs <> [] /\ forall x, In x xs -> 360 <= x).

(* where the casts are, as seen from a float at longitude l *)
Definition located (l : R) (pos : Spec_Fetchers.cast XR -> R) (cs : list (Spec_Fetchers.cast XR)) : Prop :=
  forall c, In c cs -> exists r, Spec_Fetchers.c_long c = Fin r /\ recorded_as l (pos c) r.
(* the same outcome of mapping a level; the recorded points differ by a whole turn at most *)
Definition same_outcome (a b : res (option (level_out XR))) : Prop :=
  match a, b with
  | Ok (Some o), Ok (Some o') =>
      lo_ptmp o = lo_ptmp o' /\ lo_sal o = lo_sal o' /\ lo_err o = lo_err o' /\ lo_noise o = lo_noise o' /\ lo_signal o = lo_signal o' /\
      exists turn, (turn = 0 \/ turn = 360) /\ lo_points o = map (fun q => (nadd (fst q) (Fin turn), snd q)) (lo_points o')
  | Ok None, Ok None => True
  | Raise e, Raise e' => e = e'
  | _, _ => False
  end.

(* the casts of a region as the selection sees them, at given longitudes and depths *)
Definition offered (date_str : XR -> list ascii) (cs : list (Spec_Fetchers.cast XR)) (longs depths : list XR) : list (Finders.cast XR) :=
  map (fun q => Finders.mkCast (fst (fst (fst q))) (snd (fst (fst q))) (snd (fst q)) (snd q))
      (combine (combine (combine (map Spec_Fetchers.c_lat cs) longs) (map (fun c => change_date (date_str (Spec_Fetchers.c_date c))) cs)) depths).
(* the selection for a profile, with the float at the longitude long *)
Definition search {rng} (seed : Z -> rng) (rand : rng -> nat -> list XR * rng) (g0 : rng) (qs : list XR -> list nat)
    (cfg : map_config XR) (fd : float_data XR) (long z : XR) (casts : list (Finders.cast XR)) : res (list nat) :=
  fst (find_besthist seed rand qs (fd_lat fd) long (fd_date fd) z (mc_lat_large cfg) (mc_lat_small cfg) (mc_long_large cfg) (mc_long_small cfg)
         (mc_phi_large cfg) (mc_phi_small cfg) (mc_age_large cfg) (mc_age_small cfg) (mc_use_pv cfg) casts (mc_max_casts cfg) g0).
