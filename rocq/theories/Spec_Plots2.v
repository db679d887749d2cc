(* What the files of the dashboard are expected to hold. *)
From Coq Require Import String ZArith List Bool Reals.
From Verif Require Import Num Np Spec_Finders Pyplot Plots.
Import ListNotations.
Local Open Scope R_scope.

(* ---- averages over the known values ---- *)
Definition known_values (l : list (option R)) : list R := flat_map (fun o => match o with Some x => [x] | None => [] end) l.
Definition average (l : list (option R)) : option R :=
  match known_values l with [] => None | xs => Some (mean_of xs) end.
(* the differences of two columns, where both are known *)
Definition differences (a b : list (option R)) : list (option R) :=
  map (fun q => match q with (Some x, Some y) => Some (x - y) | _ => None end) (combine a b).
Definition oXs (l : list (option R)) : list XR := map oX l.

(* one of the two panels of the salinity curve plot: the correction of every profile with one and two
   standard errors, the corrections of the single profile fits, and a reference line *)
Definition panel (nos : list R) (lo hi : R) (ys errs singles : list (option R)) (ref : R) : list (item XR) :=
  let fits := filter (fun q => match snd q with Some _ => true | None => false end) (combine nos singles) in
  [Curve (map Fin nos) (oXs ys) NoLabel;
   Curve (map (fun q => Fin (fst q)) fits) (map (fun q => oX (snd q)) fits) (Text "1-1 profile fit");
   Bars false (map Fin nos) (oXs ys) (oXs (map (option_map (fun e => 2 * e)) errs));
   Bars false (map Fin nos) (oXs ys) (oXs errs);
   Curve [Fin (-1000); Fin 1000] [Fin ref; Fin ref] NoLabel;
   Limits true (Fin lo) (Fin hi)].
Definition least (l : list R) (m : R) : Prop := In m l /\ forall x, In x l -> m <= x.
Definition greatest (l : list R) (m : R) : Prop := In m l /\ forall x, In x l -> x <= m.

Definition in_axes {D} (k : nat) (l : list D) : list (nat * D) := map (fun d => (k, d)) l.

(* ---- trajectory_plot ---- *)
(* a profile: number, longitude, latitude *)
Definition note_of (n : nat) (i : nat) (f : R * R * R) : item XR :=
  Note (Fin (fst (fst f))) (Fin (snd (fst f))) (Fin (snd f)) (Fin (INR (S i) / INR n)).
Definition annotated (n i : nat) : Prop := (i = 0 \/ (exists k, i = 3 * k) \/ S i = n)%nat.
Definition rowX (f : R * R * R) : XR * XR * XR := (Fin (fst (fst f)), Fin (snd (fst f)), Fin (snd f)).
Definition placeX (f : R * R) : XR * XR := (Fin (fst f), Fin (snd f)).

(* ---- sal_anom_plot ---- *)
Definition tally (P : R -> Prop) (dec : forall x, {P x} + {~ P x}) (l : list R) : nat := length (filter (fun x => if dec x then true else false) l).
Definition above (m : R) (l : list R) : nat := tally (fun x => m < x) (fun x => Rlt_dec m x) l.
Definition below (m : R) (l : list R) : nat := tally (fun x => x < m) (fun x => Rlt_dec x m) l.
Definition equal_to (m : R) (l : list R) : nat := tally (fun x => x = m) (fun x => Req_EM_T x m) l.
(* no more than half of the values are above m, and no more than half below *)
Definition is_median (m : R) (l : list R) : Prop := (2 * above m l <= length l)%nat /\ (2 * below m l <= length l)%nat.
(* the values of all columns in row i *)
Definition row (i : nat) (z : list (list XR)) : list XR := map (fun c => nth i c NaN) z.
Definition finite_values (l : list XR) : list R := flat_map (fun x => match x with Fin r => [r] | _ => [] end) l.
Definition shift (c : R) (o : option R) : option R := option_map (fun x => x + c) o.
(* interpolation gives a finite value or NaN, and follows a common offset of the values *)
Definition interpolates (f : list XR -> list XR -> XR -> XR) : Prop :=
  forall xs ys x, exists o, f (map Fin xs) (map Fin ys) (Fin x) = oX o
    /\ forall c, f (map Fin xs) (map Fin (map (fun y => y + c) ys)) (Fin x) = oX (shift c o).
(* a profile with a temperature *)
Definition has_temp (c : list (option R)) : Prop := exists x, In (Some x) c.
(* the temperatures 0.1, 0.2, ... 30.0 *)
Definition theta_grid : list R := map (fun k => INR (S k) / 10) (seq 0 300).
