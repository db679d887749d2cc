(* The historical casts handed to the frontal criterion, one record per cast. *)
From Coq Require Import ZArith List Bool.
From Verif Require Import Num Np Saf.
Import ListNotations.

Section Spec.
  Context {T : Type} `{Num T}.
  Record gcast : Type := mkGcast {
    k_sal : list T; k_ptmp : list T; k_pres : list T; k_lat : T; k_long : T; k_date : T; k_z : T }.
  (* the arrays of a list of casts; the depths can be followed by others *)
  Definition grid_of (cs : list gcast) (more_z : list T) : grid T :=
    mkGrid (map k_sal cs) (map k_ptmp cs) (map k_pres cs) (map k_lat cs) (map k_long cs) (map k_date cs)
           (map k_z cs ++ more_z).

  (* a temperature on the warm (1) or the cold (-1) side of the front *)
  Definition on_side (c : Z) (t300 : T) : Prop :=
    (c = 1%Z /\ nltb (nofZ 5) t300 = true) \/
    (c = (-1)%Z /\ nltb t300 (nofZ 3) = true /\ nltb (nofZ 5) t300 = false).
  (* a profile from which the temperature at 300 dbar is read: more than two levels, around 300 *)
  Definition spans_300 (ps : list T) : Prop :=
    (2 < length ps)%nat /\ nltb (np_min ps) (nofZ 300) = true /\ nltb (nofZ 300) (np_max ps) = true.
  (* two consecutive equal values *)
  Definition repeats (ps : list T) : Prop := exists a x y b, ps = a ++ x :: y :: b /\ neqb (nsub y x) (nofZ 0) = true.
  (* the pressures of the float at the levels with a pressure and a temperature *)
  Definition usable (fl : float_profile T) (i : nat) : bool :=
    negb (nisnan (nth i (fl_pres fl) nnan)) && negb (nisnan (nth i (fl_tmp fl) nnan)).
  Definition usable_pres (fl : float_profile T) : list T :=
    map (fun i => nth i (fl_pres fl) nnan) (filter (usable fl) (seq 0 (length (fl_pres fl)))).
End Spec.
Arguments gcast T : clear implicits.
