(* What the fit of a calibration series is given *)
From Coq Require Import ZArith List Bool Reals.
From Verif Require Import Num Np Finders Stats Spec_Finders Spec_Calib.
Import ListNotations.

(* the columns of the profiles idx *)
Definition columns (cols : list (list XR)) (idx : list nat) : nat -> nat -> XR :=
  fun i p => nth i (nth p (map (fun j => nth j cols []) idx) []) NaN.
(* an optional bound of the settings: nothing, or one number *)
Definition one_bound (b : list (list XR)) (o : option XR) : Prop :=
  (b = [] /\ o = None) \/ exists x, b = [[x]] /\ o = Some x.
(* lv are the levels chosen in the p-th profile, in their order *)
Definition is_level (o : option nat) : bool := match o with Some _ => true | None => false end.
Definition own_levels (th : @thetas XR) (p : nat) (lv : list nat) : Prop :=
  map Some lv = filter is_level (map (fun row => nth p row None) (th_index th)).
