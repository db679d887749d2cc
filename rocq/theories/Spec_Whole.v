(* A mapped level, from the casts of the database to the value *)
From Coq Require Import Ascii ZArith List Bool Reals.
From Verif Require Import Num Utilities Spec_Helper Spec_Interp Spec_Fetchers.
Import ListNotations.
Local Open Scope R_scope.

(* the complete samples of a cast no deeper than the limit, from top to bottom *)
Definition cast_samples (limit : XR) (c : cast XR) : list sample :=
  flat_map (fun l => opt_list (Spec_Interp.complete (l_sal l) (l_ptmp l) (l_pres l))) (levels limit c).

Section Points.
  Variable date_str : XR -> list ascii.
  Variable limit : XR.
  Variable pos : cast XR -> R.            (* the longitude of a cast, as seen from the float *)
  Variables t p delta : R.                (* temperature and pressure of the float's level, width of the window *)
  (* the cast c, with the depth z, gives the point q: salinity and pressure where it has the
     temperature t, closest to the pressure p and within delta of it *)
  Definition gives_point (c : cast XR) (z : XR) (q : hpoint R) : Prop :=
    c_lat c = Fin (hp_lat q) /\ pos c = hp_long q /\ change_date (date_str (c_date c)) = Fin (hp_date q) /\ z = Fin (hp_z q) /\
    station_gives (cast_samples limit c) t p (Fin (hp_sal q), Fin (hp_pres q)) /\ Rabs (hp_pres q - p) < delta.
  (* the points given by casts with their depths, in their order *)
  Inductive points_from : list (cast XR * XR) -> list (hpoint R) -> Prop :=
  | no_cast : points_from [] []
  | used c z q l pts : gives_point c z q -> points_from l pts -> points_from ((c, z) :: l) (q :: pts)
  | unused c z l pts : (forall q, ~ gives_point c z q) -> points_from l pts -> points_from ((c, z) :: l) pts.
End Points.
