(* The four panels of the plot of the chosen levels, and which anomalies are drawn *)
From Coq Require Import ZArith List Bool.
From Verif Require Import Num Np Pyplot Plots Spec_Plots2.
Import ListNotations.

Section Panels.
  Context {T : Type} {NT : Num T}.
  (* one curve per profile *)
  Definition profile_curves (xs ys : list (list T)) : list (item T) := map (fun q => Curve (fst q) (snd q) NoLabel) (combine xs ys).
  Definition level_lines (l : list T) : list (item T) := map (fun y => Level y) l.
  Definition downward (l : list (list T)) : list (list T) := map (map (fun x => nmul (nofZ (-1)) x)) l.
  (* upper right, upper left, lower left, lower right *)
  Definition four_panels (sal ptmp pres : list (list T)) (variance theta tlevels plevels : list T) : list (nat * item T) :=
    (in_axes 2 (profile_curves sal ptmp ++ level_lines tlevels)
     ++ in_axes 1 (Curve variance theta NoLabel :: level_lines tlevels)
     ++ in_axes 3 (profile_curves ptmp (downward pres) ++ level_lines (map nopp plevels))
     ++ in_axes 4 (profile_curves sal (downward pres) ++ level_lines (map nopp plevels)))%list.
  (* the profiles of two arrays have equally many levels each *)
  Definition same_levels (xs ys : list (list T)) : Prop :=
    forall k x y, nth_error xs k = Some x -> nth_error ys k = Some y -> length x = length y.
End Panels.

(* the samples of a profile with temperature and salinity *)
Definition known_pairs {A} (t s : list (option A)) : nat :=
  length (filter (fun q => match q with (Some _, Some _) => true | _ => false end) (combine t s)).
