(* What the optimal mapping of map_data_grid is meant to compute *)
From Coq Require Import ZArith List Bool Reals.
From Verif Require Import Num Np Stats Wrangling LinR Spec_Stats.
Import ListNotations.
Local Open Scope R_scope.

(* map_data_grid for one float position, in the parameter order in which the latitude is divided by
   s_lat *)
Definition mapped inv (s : scales) (sv nv : R) (sal : list R) (g : point R) (data : list (point R)) :=
  map_data_grid inv (map Fin sal) [fpoint g] (map fpoint data) (Fin (s_long s)) (Fin (s_lat s)) (Fin (s_age s))
    (Fin sv) (Fin nv) (Fin (s_phi s)) (if s_pv s then 1%Z else 0%Z).

(* Model of the ocean: a signal of variance sv, correlated as [correlation]; each cast measures the
   signal plus independent noise of variance nv. *)
Definition correlation (s : scales) (p q : point R) : R := exp (- separation2 s p q).
Definition cast (data : list (point R)) (i : nat) : point R := nth i data dpointR.
Definition covariances (s : scales) (sv nv : R) (data : list (point R)) : rmat :=
  fun i j => sv * correlation s (cast data i) (cast data j) + nv * delta i j.

(* expected squared error of the estimate sum w_i * cast_i of the signal at g *)
Definition mean_square_error (s : scales) (sv nv : R) (data : list (point R)) (g : point R) (w : nat -> R) : R :=
  let n := length data in
  sv - 2 * bsum n (fun i => w i * (sv * correlation s (cast data i) g))
  + bsum n (fun i => bsum n (fun j => w i * w j * covariances s sv nv data i j)).
(* weights that reproduce an unknown constant *)
Definition unbiased (n : nat) (w : nat -> R) : Prop := bsum n w = 1.
(* the unbiased weights of least expected squared error, determined uniquely *)
Definition best_weights s sv nv data g (w : nat -> R) : Prop :=
  unbiased (length data) w /\
  forall w', unbiased (length data) w' ->
    mean_square_error s sv nv data g w <= mean_square_error s sv nv data g w' /\
    (mean_square_error s sv nv data g w' = mean_square_error s sv nv data g w ->
     forall i, (i < length data)%nat -> w' i = w i).
Definition estimate (w : nat -> R) (sal : list R) : R := bsum (length sal) (fun i => w i * nth i sal 0).

(* admissible inputs: nonzero scales, depths where they are needed, at least one cast, variances *)
Definition mappable (s : scales) (sv nv : R) (g : point R) (data : list (point R)) : Prop :=
  scales_nonzero s /\ has_depth s (g :: data) /\ data <> [] /\ 0 <= sv /\ 0 <= nv.
Definition regular (s : scales) (sv nv : R) (data : list (point R)) : Prop :=
  inj (length data) (covariances s sv nv data).

(* casts with their salinities *)
Definition mapped_casts inv s sv nv (g : point R) (casts : list (point R * R)) :=
  mapped inv s sv nv (map snd casts) g (map fst casts).
(* the salinities a*x + b*y + c *)
Definition combo (a b c : R) (l l' : list R) : list R := map (fun q => a * fst q + b * snd q + c) (combine l l').
