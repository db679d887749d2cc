(* Changes of the reference points and of the float that should not matter to the mapping of a level,
   or only change its unit *)
From Coq Require Import List Reals.
From Verif Require Import Num Stats Spec_Stats Spec_Helper Spec_MapLevel.
Import ListNotations.
Local Open Scope R_scope.

(* a is one of the points nearest to c, among those elsewhere *)
Definition closest (l : list (hpoint R)) (c a : hpoint R) : Prop :=
  In a l /\ ~ same_place (observed c) (observed a) /\
  forall k, In k l -> ~ same_place (observed c) (observed k) -> dist2 (observed c) (observed a) <= dist2 (observed c) (observed k).
(* points equally near to a third one have the same salinity *)
Definition untied (l : list (hpoint R)) : Prop :=
  forall c a b, In c l -> closest l c a -> closest l c b -> hp_sal a = hp_sal b.

(* salinities in another unit *)
Definition in_unit (a c : R) (q : hpoint R) : hpoint R :=
  mkHpoint (a * hp_sal q + c) (hp_pres q) (hp_long q) (hp_lat q) (hp_date q) (hp_z q).
(* longitudes and dates counted from elsewhere *)
Definition moved (x y : R) (q : hpoint R) : hpoint R :=
  mkHpoint (hp_sal q) (hp_pres q) (hp_long q + x) (hp_lat q) (hp_date q + y) (hp_z q).
Definition moved_point (x y : R) (p : point R) : point R := mkPoint (p_lat p) (p_long p + x) (p_date p + y) (p_z p).
(* the same on the other side of the equator *)
Definition mirrored (q : hpoint R) : hpoint R :=
  mkHpoint (hp_sal q) (hp_pres q) (hp_long q) (- hp_lat q) (hp_date q) (hp_z q).
Definition mirrored_point (p : point R) : point R := mkPoint (- p_lat p) (p_long p) (p_date p) (p_z p).
Definition off_equator (l : list (point R)) : Prop := forall p, In p l -> sin (p_lat p * PI / 180) <> 0.
