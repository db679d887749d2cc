(* Which reference casts a level is mapped from *)
From Coq Require Import ZArith List Bool Reals.
From Verif Require Import Num Spec_Stats Spec_Fetchers Spec_Helper.
Import ListNotations.
Local Open Scope R_scope.

(* the cast is in the ellipse around the position (l, la) whose half axes are three times the large scales *)
Definition near (l la : R) (s : scales) (pos : cast XR -> R) (c : cast XR) : bool :=
  match c_lat c with
  | Fin y => if Rlt_dec (((pos c - l) / (3 * s_long s)) ^ 2 + ((y - la) / (3 * s_lat s)) ^ 2) 1 then true else false
  | _ => false
  end.
