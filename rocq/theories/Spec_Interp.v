(* What interp_climatology is meant to compute *)
From Coq Require Import ZArith List Bool Reals.
From Verif Require Import Num Wrangling.
Import ListNotations.
Local Open Scope R_scope.

(* a complete sample: salinity, temperature, pressure *)
Definition sample : Type := (R * R * R)%type.
Definition p_sal (q : sample) : R := fst (fst q).
Definition p_theta (q : sample) : R := snd (fst q).
Definition p_pres (q : sample) : R := snd q.
Definition dsample : sample := (0, 0, 0).
Definition complete (s t p : XR) : option sample :=
  match s, t, p with Fin s, Fin t, Fin p => Some (s, t, p) | _, _, _ => None end.
Definition opt_list {A} (o : option A) : list A := match o with Some a => [a] | None => [] end.

(* the complete samples of station j, from top to bottom *)
Definition samples (gs gt gp : array2 XR) (j : nat) : list sample :=
  flat_map (fun i => opt_list (complete (a_get gs i j) (a_get gt i j) (a_get gp i j))) (seq 0 (a_rows gs)).
Definition same_shape (a b : array2 XR) : Prop := a_rows a = a_rows b /\ a_cols a = a_cols b.

(* samples k and k+1 of a station enclose the temperature v *)
Definition at_ (f : sample -> R) (l : list sample) (k : nat) : R := f (nth k l dsample).
Definition encloses (l : list sample) (v : R) (k : nat) : Prop :=
  (S k < length l)%nat /\
  (at_ p_theta l k <= v <= at_ p_theta l (S k) \/ at_ p_theta l (S k) <= v <= at_ p_theta l k).
Definition sloped (l : list sample) (k : nat) : Prop := at_ p_theta l k <> at_ p_theta l (S k).
(* linear interpolation at the temperature v *)
Definition between (f : sample -> R) (l : list sample) (v : R) (k : nat) : R :=
  at_ f l k + (v - at_ p_theta l k) / (at_ p_theta l (S k) - at_ p_theta l k) * (at_ f l (S k) - at_ f l k).

(* the first among the sloped enclosing pairs whose interpolated pressure is closest to p *)
Definition closest (l : list sample) (v p : R) (k : nat) : Prop :=
  encloses l v k /\ sloped l k /\
  forall k', encloses l v k' -> sloped l k' ->
    Rabs (between p_pres l v k - p) <= Rabs (between p_pres l v k' - p) /\
    ((k' < k)%nat -> Rabs (between p_pres l v k - p) < Rabs (between p_pres l v k' - p)).
(* what (salinity, pressure) a station gives at temperature v and pressure p *)
Definition station_gives (l : list sample) (v p : R) (o : XR * XR) : Prop :=
  (exists k, closest l v p k /\ o = (Fin (between p_sal l v k), Fin (between p_pres l v k))) \/
  ((forall k, ~ encloses l v k) /\ o = (NaN, NaN)).
(* some pair encloses the temperature, but all those pairs are isothermal *)
Definition only_isothermal (l : list sample) (v : R) : Prop :=
  (exists k, encloses l v k) /\ forall k, encloses l v k -> ~ sloped l k.

(* a float level: complete, or not used *)
Definition level_of (q : XR * XR * XR) : option sample :=
  let '(s, t, p) := q in complete s t p.

(* one row of the result, for one float level *)
Definition row_gives (gs gt gp : array2 XR) (q : XR * XR * XR) (row : list (XR * XR)) : Prop :=
  length row = a_cols gs /\
  forall j, (j < a_cols gs)%nat ->
    match level_of q with
    | None => nth j row (NaN, NaN) = (NaN, NaN)
    | Some (_, t, p) => station_gives (samples gs gt gp j) t p (nth j row (NaN, NaN))
    end.
(* a complete float level that the climatology cannot handle *)
Definition troublesome (gs gt gp : array2 XR) (q : XR * XR * XR) : Prop :=
  exists s t p, level_of q = Some (s, t, p) /\
    ((forall j, (j < a_cols gs)%nat -> (length (samples gs gt gp j) <= 1)%nat) \/
     exists j, (j < a_cols gs)%nat /\ only_isothermal (samples gs gt gp j) t).
(* the climatology has at least one complete sample *)
Definition some_sample (gs gt gp : array2 XR) : Prop := exists j, (j < a_cols gs)%nat /\ samples gs gt gp j <> [].
