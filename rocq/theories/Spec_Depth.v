(* The depth of the sea floor at a position: bilinear in the four stored elevations around it. *)
From Coq Require Import ZArith List Reals.
From Verif Require Import Num Spec_Topo.
Import ListNotations.
Local Open Scope R_scope.

(* the value at a point of a cell, u from west to east and v from north to south *)
Definition bilinear (u v nw ne sw se : R) : R :=
  (1 - v) * ((1 - u) * nw + u * ne) + v * ((1 - u) * sw + u * se).

(* tbase.int stores elevations on rows 5 minutes apart from 90N, columns from the meridian of
   Greenwich; the longitude is understood modulo 360 *)
Definition sea_floor (f : Z -> option Z) (long lat depth : R) : Prop :=
  exists row col u v nw ne sw se,
    (0 <= row)%Z /\ (row + 1 < 2160)%Z /\ 0 <= u <= 1 /\ 0 <= v <= 1 /\
    long = (IZR col + u) / 12 /\ lat = 90 - (IZR row + v) / 12 /\
    stored_cell f row (col mod 4320) nw /\ stored_cell f row ((col + 1) mod 4320) ne /\
    stored_cell f (row + 1) (col mod 4320) sw /\ stored_cell f (row + 1) ((col + 1) mod 4320) se /\
    depth = - bilinear u v (IZR nw) (IZR ne) (IZR sw) (IZR se).

(* assumed of scipy.interpolate.interp2d(x, y, z, kind='linear') for a grid with columns x ascending
   and rows y descending: within a cell of the grid the value is bilinear in the corners *)
Definition linear_interp2d (interp2d : list XR -> list XR -> list (list Z) -> XR -> XR -> res XR) : Prop :=
  forall xs ys z a b i j,
    (forall k, (S k < length xs)%nat -> nth k xs 0 < nth (S k) xs 0) ->
    (forall k, (S k < length ys)%nat -> nth (S k) ys 0 < nth k ys 0) ->
    length z = length ys -> (forall r, In r z -> length r = length xs) ->
    (S i < length ys)%nat -> (S j < length xs)%nat ->
    nth j xs 0 <= a <= nth (S j) xs 0 -> nth (S i) ys 0 <= b <= nth i ys 0 ->
    let corner k l := IZR (nth l (nth k z []) 0%Z) in
    interp2d (map Fin xs) (map Fin ys) z (Fin a) (Fin b) =
    Ok (Fin (bilinear ((a - nth j xs 0) / (nth (S j) xs 0 - nth j xs 0)) ((nth i ys 0 - b) / (nth i ys 0 - nth (S i) ys 0))
                      (corner i j) (corner i (S j)) (corner (S i) j) (corner (S i) (S j)))).

(* positions on the map *)
Definition on_map (long lat : R) : Prop := 0 <= long <= 360 /\ -(1079 / 12) <= lat <= 90.

(* reads that fail: a float on both sides of the meridian of Greenwich, near the pole *)
Definition past_the_pole (longs lats : list R) : Prop :=
  (exists x, In x longs /\ 180 < x) /\ (exists x, In x longs /\ x < 1) /\ (exists y, In y lats /\ 88 + 11 / 12 < y).
