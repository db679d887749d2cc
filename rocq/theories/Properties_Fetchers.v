(* Properties C54-C59, C83-C85, C116: pyowc/data/fetchers.py *)
From Coq Require Import String Ascii.
From Coq Require Import ZArith List Bool Reals Lra Lia Sorting.Sorted.
From Flocq Require Import Core.Raux.
From Verif Require Import Num Np Utilities Topo Fetchers Saf Spec_Topo Spec_Fetchers Spec_Saf Spec_Cache
  Proofs_Topo Proofs_Fetchers Proofs_Region Proofs_FetchersEx Proofs_Saf Proofs_Cache DemoNum.
Import ListNotations.

(* ---- C54 ---- *)
Theorem C54_addressed_cells : forall f lo1 lo2 la1 la2,
  tbase_file f -> good_window lo1 lo2 la1 la2 ->
  let left := Zfloor (lo1 * 12) in let right := Zceil (lo2 * 12) in
  let top := Zceil (Rmin la2 90 * 12) in let bottom := Z.max (Zfloor (la1 * 12)) (-1079) in
  exists topo longs lats,
    get_topo_grid (T := XR) f (Fin lo1) (Fin lo2) (Fin la1) (Fin la2) = Ok (topo, longs, lats) /\
    addressed f left top (Z.to_nat (right - left + 1)) (Z.to_nat (top - bottom + 1)) topo longs lats.
Proof. exact get_topo_grid_addressed. Qed.
Print Assumptions C54_addressed_cells.
Example C54_witness : tbase_file (fun p => Some (p mod 256)%Z) /\ good_window (-10) 30 (-60) (-50).
Proof.
  split; [|unfold good_window; lra].
  intros p _. exists (p mod 256)%Z. split; [reflexivity|apply Z.mod_pos_bound; lia].
Qed.
(* outside these windows it is false: from 1W to 361E the row above is read, or the read fails *)
Theorem C54_wide_window_refuted : exists f topo longs lats,
  tbase_file f /\
  get_topo_grid (T := XR) f (Fin (-1)) (Fin 361) (Fin 0) (Fin 1) = Ok (topo, longs, lats) /\
  nth 0 (nth 0 lats []) NaN = Fin (90 - 1068 / 12) /\ nth 0 (nth 0 longs []) NaN = Fin (-12 / 12) /\
  ~ stored_cell f 1068 (-12 mod 4320) (nth 0 (nth 0 topo []) 0%Z).
Proof. exact wide_window_wrong. Qed.
Print Assumptions C54_wide_window_refuted.
Theorem C54_wide_window_north : forall f, tbase_file f ->
  get_topo_grid (T := XR) f (Fin (-1)) (Fin 361) (Fin 89) (Fin 90) = Raise OSError.
Proof. exact wide_window_north. Qed.
Print Assumptions C54_wide_window_north.

(* ---- C55 ---- *)
Theorem C55_boxes_in_order : forall (T : Type) (N : Num T) (NN : NumNan T) db read_mat cfg name,
  reads db read_mat -> forall other, excludes name other ->
  forall date_str (boxes : list (list T)), four_columns boxes ->
  let cs := region_casts db cfg other boxes in
  get_region_hist_locations read_mat date_str boxes name cfg =
  match cs with
  | [] => Raise ValueError
  | _ => Ok (map c_lat cs, wrap_longitude (map c_long cs), map (fun c => change_date (date_str (c_date c))) cs)
  end.
Proof. intros T N NN. exact locations. Qed.
Print Assumptions C55_boxes_in_order.
Example C55_witness : reads demo_db demo_read /\ excludes "3901960" demo_other /\
  four_columns demo_boxes /\
  map c_lat (region_casts demo_db demo_cfg demo_other demo_boxes) = [Some 50; Some 51; Some 52; Some 54]%Z /\
  get_region_hist_locations demo_read demo_date demo_boxes "3901960" demo_cfg =
    Ok ([Some 50; Some 51; Some 52; Some 54]%Z, [Some 350; Some 370; Some 380; Some 391]%Z,
        [Some 2010; Some 2010; Some 2010; Some 2010]%Z).
Proof.
  split; [exact demo_reads|]. split; [exact demo_excludes|]. split; [exact demo_four|].
  split; vm_compute; reflexivity.
Qed.

(* ---- C56 ---- *)
Theorem C56_selected_casts : forall (T : Type) (N : Num T) (NN : NumNan T) db read_mat cfg name,
  reads db read_mat -> forall other, excludes name other ->
  forall date_str (boxes : list (list T)), four_columns boxes ->
  forall index float_pres, float_pres <> [] ->
  let limit := nadd (nanmax float_pres) (map_p_delta cfg) in
  let chosen := selected index (region_casts db cfg other boxes) in
  forall c0 rest, chosen = c0 :: rest -> levels limit c0 <> [] ->
  let d := depth limit chosen in
  let kept := filter (fun p => has_data limit (fst p)) (combine chosen (wrap_longitude (map c_long chosen))) in
  get_region_data read_mat date_str boxes name cfg index float_pres =
    Ok (mkOut (map (fun p => map l_sal (col limit d (fst p))) kept)
              (map (fun p => map l_ptmp (col limit d (fst p))) kept)
              (map (fun p => map l_pres (col limit d (fst p))) kept)
              (map (fun p => c_lat (fst p)) kept) (map snd kept)
              (map (fun p => change_date (date_str (c_date (fst p)))) kept)).
Proof. intros T N NN. exact data_selected. Qed.
Print Assumptions C56_selected_casts.
Theorem C56_nothing_selected : forall (T : Type) (N : Num T) (NN : NumNan T) db read_mat cfg name,
  reads db read_mat -> forall other, excludes name other ->
  forall date_str (boxes : list (list T)), four_columns boxes ->
  forall index float_pres, float_pres <> [] ->
  selected index (region_casts db cfg other boxes) = [] ->
  get_region_data read_mat date_str boxes name cfg index float_pres = Raise RuntimeError.
Proof. intros T N NN. exact data_none. Qed.
Print Assumptions C56_nothing_selected.
Example C56_witness : exists c0 rest,
  selected [3; 1; 0]%nat (region_casts demo_db demo_cfg demo_other demo_boxes) = c0 :: rest /\ length rest = 2%nat /\
  levels (nadd (nanmax [Some 100; Some 1000]) (map_p_delta demo_cfg))%Z c0 <> [] /\
  match get_region_data demo_read demo_date demo_boxes "3901960" demo_cfg [3; 1; 0]%nat [Some 100; Some 1000]%Z with
  | Ok o => o_lat o = [Some 50; Some 51; Some 54]%Z /\ o_pres o = [[Some 10; Some 200]; [Some 10; None]; [Some 10; None]]%Z
  | Raise _ => False
  end.
Proof. eexists _, _. split; [vm_compute; reflexivity|]. split; [reflexivity|]. split; [vm_compute; discriminate|].
  vm_compute. split; reflexivity. Qed.

(* ---- C57 ---- *)
Theorem C57_empty_first_cast : forall (T : Type) (N : Num T) (NN : NumNan T) db read_mat cfg name,
  reads db read_mat -> forall other, excludes name other ->
  forall date_str (boxes : list (list T)), four_columns boxes ->
  forall index float_pres, float_pres <> [] ->
  let limit := nadd (nanmax float_pres) (map_p_delta cfg) in
  let chosen := selected index (region_casts db cfg other boxes) in
  forall c0 rest, chosen = c0 :: rest -> levels limit c0 = [] ->
  get_region_data read_mat date_str boxes name cfg index float_pres = Ok (mkOut [] [] [] [] [] []).
Proof. intros T N NN. exact data_lost. Qed.
Print Assumptions C57_empty_first_cast.
Example C57_witness : exists c0 c1,
  selected [2; 3]%nat (region_casts demo_db demo_cfg demo_other demo_boxes) = [c0; c1] /\
  levels (Some 1250)%Z c0 = [] /\ has_data (Some 1250)%Z c1 = true /\
  nadd (nanmax [Some 100; Some 1000]%Z) (map_p_delta demo_cfg) = (Some 1250)%Z.
Proof. eexists _, _. split; [vm_compute; reflexivity|]. split; [|split]; vm_compute; reflexivity. Qed.

(* ---- C58 ---- *)
Theorem C58_float_excluded : forall (T : Type) (N : Num T) db read_mat cfg name, reads db read_mat ->
  forall (n c b : T) rest box cs,
  int_of_float n = Ok box -> neqb (nofZ 1 : T) (nofZ 1) = true ->
  db (box_file (historical_directory cfg) (argo_prefix cfg) box) = Some cs ->
  (2 <= length cs)%nat -> (forall k, In k cs -> (2 <= length (c_levels k))%nat) ->
  exists d keep, get_data read_mat cfg name (n :: c :: b :: nofZ 1 :: rest) 3 = Ok (Some d) /\
    (forall k, keep k = true <-> ~ occurs name (c_source k)) /\ arrays d (filter keep cs).
Proof. intros T N. exact argo_excluded. Qed.
Print Assumptions C58_float_excluded.
(* nothing is read from smaller files *)
Theorem C58_small_file : forall (T : Type) (N : Num T) db read_mat cfg name, reads db read_mat ->
  forall (n c b : T) rest box cs,
  int_of_float n = Ok box -> neqb (nofZ 1 : T) (nofZ 1) = true ->
  db (box_file (historical_directory cfg) (argo_prefix cfg) box) = Some cs ->
  (length cs <= 1)%nat \/ (exists k, In k cs /\ (length (c_levels k) <= 1)%nat) ->
  exists e, get_data read_mat cfg name (n :: c :: b :: nofZ 1 :: rest) 3 = Raise e.
Proof. intros T N. exact argo_small. Qed.
Print Assumptions C58_small_file.
Example C58_witness : demo_db "/db/argo_3505.mat"%string = Some demo_casts_argo /\ length demo_casts_argo = 3%nat /\
  match get_data demo_read demo_cfg "3901960"%string [Some 3505; Some 1; Some 1; Some 1]%Z 3 with
  | Ok (Some d) => d_lat d = Vec [Some 52; Some 54]%Z /\ d_pres d = Mat [[Some 9000; None]; [Some 10; None]]%Z
  | _ => False
  end.
Proof. vm_compute. split; [|split; [|split]]; reflexivity. Qed.

(* ---- C59 ---- *)
Theorem C59_subselection : forall (T : Type) (N : Num T) np_interp sa ct tc saf (cs : list (gcast T)) more fl g,
  frontal_constraint_saf np_interp sa ct tc saf (grid_of cs more) fl = Ok g ->
  g = grid_of cs more \/ exists keep, g = grid_of (filter keep cs) [].
Proof. intros T N. exact saf_subselection. Qed.
Print Assumptions C59_subselection.
Theorem C59_north_unchanged : forall (T : Type) (N : Num T) np_interp sa ct tc saf (g : grid T) fl,
  nltb (fl_lat fl) (nofZ (-30)) = false -> frontal_constraint_saf np_interp sa ct tc saf g fl = Ok g.
Proof. intros T N. exact saf_north. Qed.
Print Assumptions C59_north_unchanged.
(* south of 30S a float of side c keeps exactly the casts of side c, and an undecided one keeps all *)
Theorem C59_same_side : forall (T : Type) (N : Num T) np_interp sa ct tc saf (cs : list (gcast T)) more fl g,
  nltb (fl_lat fl) (nofZ (-30)) = true ->
  frontal_constraint_saf np_interp sa ct tc saf (grid_of cs more) fl = Ok g ->
  exists c keep, crit_saf np_interp saf fl = Ok c /\ g = grid_of (filter keep cs) [] /\
    forall k, In k cs ->
      (keep k = true <-> c = 0%Z \/ cast_saf np_interp sa ct tc (k_pres k) (k_sal k) (k_ptmp k) (k_long k) (k_lat k) = Ok c).
Proof. intros T N. exact saf_selected. Qed.
Print Assumptions C59_same_side.
Theorem C59_cast_side : forall (T : Type) (N : Num T) np_interp sa ct tc (k : gcast T) c,
  cast_saf np_interp sa ct tc (k_pres k) (k_sal k) (k_ptmp k) (k_long k) (k_lat k) = Ok c -> c <> 0%Z ->
  exists idx tmp, StronglySorted lt idx /\
    (forall i, In i idx -> nisnan (nth i (k_pres k) nnan) = false /\ nisnan (nth i (k_sal k) nnan) = false /\
                           nisnan (nth i (k_ptmp k) nnan) = false) /\
    spans_300 (map (fun i => nth i (k_pres k) nnan) idx) /\ length tmp = length idx /\
    on_side c (np_interp (nofZ 300) (map (fun i => nth i (k_pres k) nnan) idx) tmp).
Proof. intros T N. exact cast_side. Qed.
Print Assumptions C59_cast_side.
Theorem C59_float_side : forall (T : Type) (N : Num T) np_interp saf (fl : float_profile T) c,
  argwhere (fun d => neqb d (nofZ 0)) (np_diff (usable_pres fl)) = [] -> spans_300 (usable_pres fl) ->
  let tmp := map (fun i => nth i (fl_tmp fl) nnan) (filter (usable fl) (seq 0 (length (fl_pres fl)))) in
  on_side c (np_interp (nofZ 300) (usable_pres fl) tmp) -> crit_saf np_interp saf fl = Ok c.
Proof. intros T N. exact saf_float_side. Qed.
Print Assumptions C59_float_side.
Definition demo_interp (x : ZN) (xp fp : list ZN) : ZN := hd None fp.
Definition demo_warm : gcast ZN :=
  mkGcast [Some 34; Some 34; Some 34; Some 34]%Z [Some 6; Some 6; Some 6; Some 6]%Z
    [Some 100; Some 200; Some 400; Some 500]%Z (Some (-40))%Z (Some 10)%Z (Some 2010)%Z (Some 3000)%Z.
Definition demo_cold : gcast ZN :=
  mkGcast [Some 34; Some 34; Some 34; Some 34]%Z [Some 2; Some 2; Some 2; Some 2]%Z
    [Some 100; Some 200; Some 400; Some 500]%Z (Some (-41))%Z (Some 11)%Z (Some 2011)%Z (Some 4000)%Z.
Definition demo_south : float_profile ZN :=
  mkFloat (Some (-45))%Z [Some 100; Some 200; Some 400]%Z [Some 6; Some 6; Some 6]%Z [Some 34; Some 34; Some 34]%Z.
Definition no_saf : saf_profile ZN := mkSaf [] [] [] [] [] [] [] [] [].
Example C59_witness :
  frontal_constraint_saf demo_interp (fun s _ _ _ => s) (fun _ t => t) (fun _ t _ => t) no_saf
    (grid_of [demo_warm; demo_cold; demo_warm] [Some 1]%Z) demo_south = Ok (grid_of [demo_warm; demo_warm] []).
Proof. vm_compute. reflexivity. Qed.

(* ---- C83, C84: the cached readers ---- *)
Theorem C83_cache_transparent : forall (K V : Type) (eqb : K -> K -> bool), (forall a b, eqb a b = true <-> a = b) ->
  forall (d : K -> res V) ks, fst (calls eqb (map (fun k => (d, k)) ks) []) = map d ks.
Proof. exact @transparent. Qed.
Print Assumptions C83_cache_transparent.
Example C83_witness : fst (calls Nat.eqb (map (fun k => (fun n : nat => if Nat.eqb n 2 then Raise OSError else Ok (n * n)%nat, k)) [3; 2; 3; 2]%nat) [])
  = [Ok 9; Raise OSError; Ok 9; Raise OSError]%nat.
Proof. reflexivity. Qed.
Theorem C84_cache_stale : forall (K V : Type) (eqb : K -> K -> bool), (forall a b, eqb a b = true <-> a = b) ->
  forall h0 (d1 : K -> res V) k v h1 d2,
  let c0 := snd (calls eqb h0 []) in
  fst (cached_read eqb d1 k c0) = Ok v -> (length h1 < 128)%nat ->
  let c1 := snd (calls eqb h1 (snd (cached_read eqb d1 k c0))) in
  fst (cached_read eqb d2 k c1) = Ok v.
Proof. exact @stale. Qed.
Print Assumptions C84_cache_stale.
Example C84_witness : fst (calls Nat.eqb [(fun _ : nat => Ok 1%nat, 7%nat); (fun _ => Ok 2%nat, 8%nat); (fun _ => Ok 2%nat, 7%nat)] [])
  = [Ok 1; Ok 2; Ok 1]%nat.
Proof. reflexivity. Qed.

(* ---- C85 ---- *)
Theorem C85_repeated_pressure : forall (T : Type) (N : Num T) np_interp sa ct tc saf (g : grid T) fl,
  nltb (fl_lat fl) (nofZ (-30)) = true -> repeats (usable_pres fl) ->
  frontal_constraint_saf np_interp sa ct tc saf g fl = Raise ValueError.
Proof. intros T N. exact saf_repeated. Qed.
Print Assumptions C85_repeated_pressure.
Example C85_witness : repeats (T := ZN) (usable_pres (mkFloat (Some (-45)) [Some 100; Some 200; Some 200; Some 400]
    [Some 6; Some 6; Some 6; Some 6] [Some 34; Some 34; Some 34; Some 34]))%Z.
Proof. exists [Some 100]%Z, (Some 200)%Z, (Some 200)%Z, [Some 400]%Z. split; reflexivity. Qed.

(* ---- C116: files with one cast or one level ---- *)
Theorem C116_single_cast : forall (T : Type) (N : Num T) (NN : NumNan T) db r r',
  reads db r -> reads (without_single db) r' ->
  forall cfg name other, excludes name other -> forall date_str (boxes : list (list T)), four_columns boxes ->
  get_region_hist_locations r date_str boxes name cfg = get_region_hist_locations r' date_str boxes name cfg /\
  forall index float_pres, float_pres <> [] ->
  get_region_data r date_str boxes name cfg index float_pres = get_region_data r' date_str boxes name cfg index float_pres.
Proof. intros T N NN. exact single_cast_ignored. Qed.
Print Assumptions C116_single_cast.
Theorem C116_few_levels : forall (T : Type) (N : Num T) (NN : NumNan T) db read_mat cfg name,
  reads db read_mat -> forall other, excludes name other ->
  forall date_str (boxes : list (list T)), four_columns boxes ->
  forall index index' float_pres, float_pres <> [] ->
  (forall i, In i index' <-> In i index /\ exists c, nth_error (region_casts db cfg other boxes) i = Some c /\ (2 <= length (c_levels c))%nat) ->
  get_region_data read_mat date_str boxes name cfg index float_pres =
  get_region_data read_mat date_str boxes name cfg index' float_pres.
Proof. intros T N NN. exact few_levels_ignored. Qed.
Print Assumptions C116_few_levels.
(* a box with two CTD casts of one level, one bottle cast, three Argo casts (one of the float): the
   bottle cast is not offered, the CTD casts are offered and have data, but are not returned *)
Theorem C116_refuted : exists (db : database ZN) read_mat cfg name other (boxes : list (list ZN)) lat long dates o,
  reads db read_mat /\ excludes name other /\ four_columns boxes /\
  (exists c, db "/db/bot_3505.mat"%string = Some [c] /\ c_lat c = Some 60%Z) /\
  get_region_hist_locations read_mat demo_date boxes name cfg = Ok (lat, long, dates) /\
  lat = [Some 50; Some 51; Some 52; Some 54]%Z /\
  forallb (has_data (Some 10000)%Z) (region_casts db cfg other boxes) = true /\
  get_region_data read_mat demo_date boxes name cfg [0; 1; 2; 3]%nat [Some 9750]%Z = Ok o /\
  nadd (nanmax [Some 9750]%Z) (map_p_delta cfg) = (Some 10000)%Z /\
  o_lat o = [Some 52; Some 54]%Z.
Proof. exact small_files_demo. Qed.
Print Assumptions C116_refuted.
Example C116_witness : reads small_db small_read /\ reads (without_single small_db) small_read' /\ excludes "3901960" demo_other /\
  four_columns demo_boxes /\
  forall i, In i [2]%nat <-> In i [0; 2]%nat /\
    exists c, nth_error (region_casts small_db demo_cfg demo_other demo_boxes) i = Some c /\ (2 <= length (c_levels c))%nat.
Proof.
  split; [exact small_reads|]. split; [exact small_reads'|]. split; [exact demo_excludes|]. split; [exact demo_four|].
  exact small_index.
Qed.
