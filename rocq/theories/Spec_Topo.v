(* What get_topo_grid is to return: the stored elevation of the cells whose coordinates it reports. *)
From Coq Require Import ZArith List Reals.
From Flocq Require Import Core.Raux.
From Verif Require Import Num.
Import ListNotations.

(* tbase.int: 2160 rows (90N down to 90S) of 4320 columns (eastwards from 0) of 16-bit words *)
Definition tbase_file (f : Z -> option Z) : Prop :=
  forall p, (0 <= p < 2 * (2160 * 4320))%Z -> exists b, f p = Some b /\ (0 <= b < 256)%Z.

(* v is the signed word stored for row, column *)
Definition stored_cell (f : Z -> option Z) (row col v : Z) : Prop :=
  exists lo hi,
    f (2 * (4320 * row + col))%Z = Some lo /\ f (2 * (4320 * row + col) + 1)%Z = Some hi /\
    (-32768 <= v < 32768)%Z /\ ((v - (lo + 256 * hi)) mod 65536 = 0)%Z.

(* [topo] is the block of the file in which row i, column j is the cell at latitude top/12 - i/12,
   longitude left/12 + j/12; its coordinates are reported in [lats] and [longs]. *)
Definition addressed (f : Z -> option Z) (left top : Z) (ncol nrow : nat)
    (topo : list (list Z)) (longs lats : list (list XR)) : Prop :=
  length topo = nrow /\ length longs = nrow /\ length lats = nrow /\
  forall i, (i < nrow)%nat ->
    length (nth i topo []) = ncol /\ length (nth i longs []) = ncol /\ length (nth i lats []) = ncol /\
    forall j, (j < ncol)%nat ->
      exists row col,
        (0 <= row < 2160)%Z /\
        nth j (nth i lats []) NaN = Fin (90 - IZR row / 12) /\
        IZR row = (90 * 12 - IZR top + INR i)%R /\
        nth j (nth i longs []) NaN = Fin (IZR col / 12) /\
        col = (left + Z.of_nat j)%Z /\
        stored_cell f row (col mod 4320) (nth j (nth i topo []) 0%Z).

(* windows that do not reach from west of 0 to 360 or further east *)
Definition good_window (min_long max_long min_lat max_lat : R) : Prop :=
  (-360 <= min_long <= max_long)%R /\ (max_long <= 719)%R /\
  (0 <= min_long \/ max_long <= 359 + 11 / 12)%R /\
  (min_lat <= max_lat)%R /\ (-90 < max_lat)%R /\ (min_lat <= 90)%R.
