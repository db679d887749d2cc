(* The historical points used at one level, and the record of points used. *)
From Coq Require Import ZArith List Bool Reals.
From Verif Require Import Num Np Helper.
Import ListNotations.

Section Spec.
  Context {T : Type} `{Num T}.
  (* a historical cast at a level *)
  Record hpoint : Type := mkHpoint { hp_sal : T; hp_pres : T; hp_long : T; hp_lat : T; hp_date : T; hp_z : T }.
  Definition hist_of (l : list hpoint) : hist T :=
    mkHist (map hp_sal l) (map hp_pres l) (map hp_long l) (map hp_lat l) (map hp_date l) (map hp_z l).
  (* the points used at a level: a valid salinity, pressure strictly within delta of the float's *)
  Definition in_window (p delta : T) (q : hpoint) : bool :=
    negb (nisnan (hp_sal q)) && nltb (nabs (nsub (hp_pres q) p)) delta.
End Spec.
Arguments hpoint T : clear implicits.

Local Open Scope R_scope.
(* points (longitude, latitude) and a profile number *)
Definition rrecord : Type := R * R * R.
Definition of_r (r : rrecord) : record XR := (Fin (fst (fst r)), Fin (snd (fst r)), Fin (snd r)).
Definition of_xy (p : R * R) : XR * XR := (Fin (fst p), Fin (snd p)).
Definition near (p : R * R) (r : rrecord) : Prop :=
  Rabs (fst (fst r) - fst p) < 1 / 60 /\ Rabs (snd (fst r) - snd p) < 1 / 60.
Definition far (r s : rrecord) : Prop :=
  1 / 60 <= Rabs (fst (fst r) - fst (fst s)) \/ 1 / 60 <= Rabs (snd (fst r) - snd (fst s)).
(* the records left by a history of calls, each with a profile number and its points *)
Fixpoint history (h : list (R * list (R * R))) (start : list (record XR)) : res (list (record XR)) :=
  match h with
  | [] => Ok start
  | (no, pts) :: h => let* s := selected_historical_points start (map of_xy pts) (Fin no) in history h s
  end.

(* mean and standard deviation (divided by the number of values) *)
Definition rmean (l : list R) : R := fold_right Rplus 0 l / INR (length l).
Definition rsd (l : list R) : R := sqrt (fold_right Rplus 0 (map (fun x => (x - rmean l) ^ 2) l) / INR (length l)).
