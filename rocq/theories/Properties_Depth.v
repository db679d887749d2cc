(* The depth of the sea floor at the positions of the float and of the historical casts *)
From Coq Require Import String Ascii.
From Coq Require Import ZArith List Bool Reals Lra Lia.
From Verif Require Import Num Np Spec_Topo Spec_Depth Stats Calib Spec_Fetchers Saf MapProfile Spec_MapLevel
  Proofs_Depth2 Proofs_Depth3 Proofs_Depth4.
From Verif Require Finders Utilities.
Import ListNotations.
Local Open Scope R_scope.

(* ---- C122 ---- *)
(* a position has one depth, whichever cell and whichever longitude modulo 360 *)
Theorem C122_one_depth : forall f long lat d d', tbase_file f -> sea_floor f long lat d -> sea_floor f long lat d' -> d = d'.
Proof. exact depth_determined. Qed.
Print Assumptions C122_one_depth.
Theorem C122_longitude : forall f long lat d k, sea_floor f long lat d -> sea_floor f (long + 360 * IZR k) lat d.
Proof. exact depth_period. Qed.
Print Assumptions C122_longitude.
(* the float in the mapping *)
Theorem C122_float : forall (rng : Type) (seed : Z -> rng) rand g0 qs inv np_interp sa ct tc interp2d tbase read_mat date_str cfg float_name,
  tbase_file tbase -> linear_interp2d interp2d -> forall s i fd lo la lev,
  get_float_data s i = Ok fd -> mappable_profile fd -> fd_long fd = Fin lo -> fd_lat fd = Fin la -> on_map lo la ->
  profile_levels seed rand g0 qs inv np_interp sa ct tc interp2d tbase read_mat date_str cfg float_name s i = Ok lev ->
  exists d g, sea_floor tbase lo la d /\
    best_history seed rand g0 qs np_interp sa ct tc interp2d tbase read_mat date_str cfg float_name fd (Fin d) = Ok g /\
    forall n o, lev n = Ok (Some o) -> exists k ptmp h,
      map_level inv cfg (mkPoint (Fin la) (Fin (lo + 360 * IZR k)) (fd_date fd) (Fin d)) ptmp h = Ok (Some o).
Proof. exact @float_depth. Qed.
Print Assumptions C122_float.
(* the positions of the historical casts, wrapped by wrap_longitude *)
Theorem C122_positions : forall f interp2d, tbase_file f -> linear_interp2d interp2d ->
  forall longs lats, longs <> [] -> length lats = length longs ->
  (forall i, (i < length longs)%nat -> on_map (nth i longs 0) (nth i lats 0)) ->
  exists ds, grid_depths interp2d f (Utilities.wrap_longitude (map Fin longs)) (map Fin lats) = Ok (map Fin ds) /\ length ds = length longs /\
    forall i, (i < length longs)%nat -> sea_floor f (nth i longs 0) (nth i lats 0) (nth i ds 0).
Proof. exact casts_depths. Qed.
Print Assumptions C122_positions.
(* the historical casts of a profile; the index may choose others than the data, see C91 *)
Theorem C122_casts : forall (rng : Type) (seed : Z -> rng) rand g0 qs np_interp sa ct tc interp2d tbase read_mat date_str cfg float_name,
  tbase_file tbase -> linear_interp2d interp2d -> forall db, reads db read_mat -> forall other, excludes float_name other ->
  four_columns (mc_boxes cfg) -> forall fd z g boxes, mappable_profile fd -> mc_use_saf cfg <> 1%Z ->
  Finders.find_25boxes (fd_long fd) (fd_lat fd) (mc_boxes cfg) = Ok boxes ->
  let cs := region_casts db (mc_db cfg) other boxes in
  (forall c, In c cs -> exists lo la, c_long c = Fin lo /\ c_lat c = Fin la /\ on_map lo la) ->
  best_history seed rand g0 qs np_interp sa ct tc interp2d tbase read_mat date_str cfg float_name fd z = Ok g ->
  exists ds index, length ds = length cs /\ (forall i, In i index -> (i < length cs)%nat) /\
    gr_z g = map (fun i => Fin (nth i ds 0)) index /\
    forall i c, nth_error cs i = Some c -> exists lo la, c_long c = Fin lo /\ c_lat c = Fin la /\ sea_floor tbase lo la (nth i ds 0).
Proof. exact @history_sea_floor. Qed.
Print Assumptions C122_casts.
(* the float in the calibration *)
Theorem C122_calibration : forall f interp2d, tbase_file f -> linear_interp2d interp2d ->
  forall longs lats, length lats = length longs -> longs <> [] ->
  (forall i, (i < length longs)%nat -> on_map (nth i longs 0) (nth i lats 0)) -> ~ past_the_pole longs lats ->
  exists ds, length ds = length longs /\
    float_coords interp2d f (mkPositions [map Fin longs] [map Fin lats]) =
      Ok (map (fun q => mkCoord (Fin (fst (fst q))) (Fin (snd (fst q))) (Fin (snd q))) (combine (combine longs lats) ds)) /\
    forall i, (i < length longs)%nat -> sea_floor f (nth i longs 0) (nth i lats 0) (nth i ds 0).
Proof. exact calibration_depths. Qed.
Print Assumptions C122_calibration.
(* and its failure near the pole *)
Theorem C122_pole : forall f interp2d, tbase_file f ->
  forall longs lats, length lats = length longs -> longs <> [] ->
  (forall i, (i < length longs)%nat -> on_map (nth i longs 0) (nth i lats 0)) -> past_the_pole longs lats ->
  float_coords interp2d f (mkPositions [map Fin longs] [map Fin lats]) = Raise OSError.
Proof. exact calibration_pole. Qed.
Print Assumptions C122_pole.
Example C122_witness : linear_interp2d demo_interp2d /\ tbase_file (fun p => Some (p mod 256)%Z) /\
  (forall i, (i < 2)%nat -> on_map (nth i [359; 1 / 2] 0) (nth i [60; 61] 0)) /\ ~ past_the_pole [359; 1 / 2] [60; 61] /\
  past_the_pole [359; 1 / 2] [60; 89].
Proof.
  split; [exact demo_linear|]. split; [intros p _; exists (p mod 256)%Z; split; [reflexivity|apply Z.mod_pos_bound; lia]|].
  split; [intros [|[|i]] Hi; [| |lia]; cbn; unfold on_map; lra|]. split.
  - intros (_ & _ & y & [<-|[<-|[]]] & L); lra.
  - split; [exists 359; cbn; split; [auto|lra]|]. split; [exists (1 / 2); cbn; split; [auto|lra]|exists 89; cbn; split; [auto|lra]].
Qed.
