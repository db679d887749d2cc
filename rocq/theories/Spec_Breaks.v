(* Break points prescribed in the settings of the calibration *)
From Coq Require Import List Reals.
From Verif Require Import Num.
Import ListNotations.
Local Open Scope R_scope.

(* the entries of a row that are numbers: the rest is padding *)
Fixpoint prescribed (row : list XR) : nat :=
  match row with [] => 0%nat | Fin _ :: r => S (prescribed r) | _ :: r => prescribed r end.
(* the largest number of breaks of series i of n: one row holds for several series *)
Definition limit_of (n : nat) (rows : list (list XR)) (i : nat) (m : R) : Prop :=
  (1 < n)%nat /\ rows = [[Fin m]] \/ (n <= 1 \/ length rows <> 1)%nat /\ nth_error rows i = Some [Fin m].
(* one row of break points for each of the n series, none with more than its limit *)
Definition breaks_fit (n : nat) (breaks limits : list (list XR)) (m : nat -> R) : Prop :=
  length breaks = n /\ (n <= 1 \/ length limits = 1 \/ length limits = n)%nat /\
  forall i row, nth_error breaks i = Some row -> INR (prescribed row) <= m i.
