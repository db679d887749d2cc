(* Properties C63-C67, C86-C92: update_salinity_mapping, pyowc/calibration.py *)
From Coq Require Import String Ascii.
From Coq Require Import ZArith List Bool Reals Lra Lia Permutation Sorting.Sorted.
From Verif Require Import Num Np Stats Topo Fetchers Saf Helper MapProfile Mapping
  Spec_Stats Spec_FitCond Spec_Map Spec_Helper Spec_Fetchers Spec_MapLevel Spec_Mapping
  Proofs_Mapping Proofs_Mapping2 Proofs_Mapping3 Proofs_Mapping4 Proofs_MapLevel Proofs_MapProfile Proofs_MappingEx
  Proofs_FetchersEx Proofs_FC11 DemoNum.
Import ListNotations.
Local Open Scope nat_scope.

(* ---- C63 ---- *)
(* without mapped file: what is saved, and when *)
Theorem C63_fresh_run : forall (T : Type) (N : Num T) (values : list T) levels calc nos, length values = 12 ->
  forall (qs : list T -> list nat) (d : Mapping.mapped T), sorting qs ->
  (Mapping.run values levels calc qs None nos = Ok d <->
   calculated levels calc nos /\ exists sel, recorded (points_used levels calc nos) [] = Ok sel /\ sel <> [] /\
     saved_file levels calc nos values (qs nos) sel d).
Proof. intros T N. exact fresh_iff. Qed.
Print Assumptions C63_fresh_run.
Theorem C63_every_profile_once : forall qs, sorting qs -> forall cwd paths src rs,
  src_no src = map Fin rs -> NoDup rs -> forall float_dir float_name calc cfg (st : store XR) st',
  st (load_path cwd paths float_dir float_name) = None ->
  update_salinity_mapping qs calc cwd paths cfg src float_dir float_name st = (Ok tt, st') ->
  exists d sorted,
    st' (save_path cwd paths float_name) = Some d /\
    (forall q, q <> save_path cwd paths float_name -> st' q = st q) /\
    la_profile_no d = map Fin sorted /\ Permutation sorted rs /\ increasing sorted /\
    complete_columns (src_levels src) (length rs) d.
Proof. exact fresh_store. Qed.
Print Assumptions C63_every_profile_once.
(* a directory argument like "/": whatever the second run would calculate (calc') is not used *)
Theorem C63_second_run : forall qs, sorting qs -> forall cwd paths src rs,
  src_no src = map Fin rs -> NoDup rs -> forall float_dir float_name calc calc' cfg cfg' (st : store XR) st',
  no_directory float_dir -> st (load_path cwd paths float_dir float_name) = None ->
  update_salinity_mapping qs calc cwd paths cfg src float_dir float_name st = (Ok tt, st') ->
  exists st'', update_salinity_mapping qs calc' cwd paths cfg' src float_dir float_name st' = (Ok tt, st'') /\
    same_store st'' st'.
Proof. exact second_store. Qed.
Print Assumptions C63_second_run.
Example C63_witness : sorting (T := XR) argsort /\ src_no demo_source = map Fin demo_nos /\ NoDup demo_nos /\ no_directory "/" /\
  exists st', update_salinity_mapping argsort (fun _ => demo_calc) [] demo_paths demo_settings demo_source "/" "3901960" (fun _ => None) = (Ok tt, st').
Proof.
  split; [exact argsort_sorting|]. split; [reflexivity|]. split; [exact demo_nodup|].
  split; [repeat constructor; auto|exact (demo_update "/")].
Qed.
(* a directory argument with a name: the file is not found again and the second run starts afresh *)
Theorem C63_named_directory : forall qs, sorting qs -> forall cwd paths src rs,
  src_no src = map Fin rs -> NoDup rs -> forall float_dir float_name calc calc' cfg cfg' (st : store XR) st',
  plain_name float_dir -> plain_name (mp_prefix paths ++ float_name ++ mp_postfix paths)%string ->
  st (load_path cwd paths float_dir float_name) = None ->
  update_salinity_mapping qs calc cwd paths cfg src float_dir float_name st = (Ok tt, st') ->
  fst (update_salinity_mapping qs calc' cwd paths cfg' src float_dir float_name st')
  = fst (update_salinity_mapping qs calc' cwd paths cfg' src float_dir float_name st) /\
  st' (load_path cwd paths float_dir float_name) = None.
Proof. exact second_store_named. Qed.
Print Assumptions C63_named_directory.
Theorem C63_second_run_refuted : exists st' : store XR,
  update_salinity_mapping argsort (fun _ => demo_calc) [] demo_paths demo_settings demo_source "float" "3901960" (fun _ => None) = (Ok tt, st') /\
  fst (update_salinity_mapping argsort (fun _ _ => Raise FileNotFoundError) [] demo_paths demo_settings demo_source "float" "3901960" st')
  = Raise FileNotFoundError.
Proof. exact demo_second. Qed.
Print Assumptions C63_second_run_refuted.

(* ---- C64 ---- *)
Theorem C64_incremental : forall (T : Type) (N : Num T) (qs : list T -> list nat) cwd paths calc cfg (src : source T) float_dir float_name (st : store T) d p,
  st (load_path cwd paths float_dir float_name) = Some d -> well_formed d ->
  In p (src_no src) -> (forall q, In q (la_profile_no d) -> neqb q p = false) ->
  update_salinity_mapping qs calc cwd paths cfg src float_dir float_name st = (Raise AttributeError, st).
Proof. exact @incremental_store. Qed.
Print Assumptions C64_incremental.
(* the file of a run over the profiles 2, 3, 1 when profile 4 has arrived *)
Example C64_witness : exists d, Mapping.run (map_values demo_settings) 1 demo_calc argsort None (map Fin demo_nos) = Ok d /\ well_formed d /\
  forall q, In q (la_profile_no d) -> neqb q (Fin 4) = false.
Proof. exact demo_incremental. Qed.

(* ---- C65 ---- *)
(* the settings are with their profiles *)
Theorem C65_settings : forall qs, sorting qs -> forall values, length values = 12 -> forall levels calc rs, NoDup rs ->
  forall d, Mapping.run values levels calc qs None (map Fin rs) = Ok d -> forall i, i < 12 ->
  labelled rs (la_profile_no d) (fun p => if has_levels levels calc p then nth i values NaN else NaN)
    (fun j => nth j (snd (nth i (settings d) (EmptyString, []))) NaN).
Proof. exact settings_labelled. Qed.
Print Assumptions C65_settings.
(* the columns of the matrices are for profiles in ascending order, and for no other order *)
Theorem C65_columns : forall qs, sorting qs -> forall values, length values = 12 -> forall levels calc rs, NoDup rs ->
  forall d, Mapping.run values levels calc qs None (map Fin rs) = Ok d -> forall m f, In (m, f) (contents d) ->
  (forall p q, p < length rs -> q < length rs -> profile_column levels calc f p = profile_column levels calc f q -> p = q) ->
  (labelled rs (la_profile_no d) (profile_column levels calc f) (fun j => nth j (m_cols m) []) <-> increasing rs).
Proof. exact columns_labelled. Qed.
Print Assumptions C65_columns.
Theorem C65_ascending : forall qs, sorting qs -> forall values, length values = 12 -> forall levels calc rs, NoDup rs ->
  forall d, Mapping.run values levels calc qs None (map Fin rs) = Ok d -> forall m f, In (m, f) (contents d) ->
  increasing rs -> labelled rs (la_profile_no d) (profile_column levels calc f) (fun j => nth j (m_cols m) []).
Proof. exact ascending_labelled. Qed.
Print Assumptions C65_ascending.
Example C65_witness : sorting (T := XR) argsort /\ NoDup demo_nos /\
  exists d, Mapping.run (map_values demo_settings) 1 demo_calc argsort None (map Fin demo_nos) = Ok d.
Proof. exact (conj argsort_sorting (conj demo_nodup (demo_run (map_values demo_settings) eq_refl))). Qed.
(* profiles 2, 3, 1: no matrix has its columns right *)
Theorem C65_columns_refuted : exists d, Mapping.run (map_values demo_settings) 1 demo_calc argsort None (map Fin demo_nos) = Ok d /\
  forall m f, In (m, f) (contents d) ->
  ~ labelled demo_nos (la_profile_no d) (profile_column 1 demo_calc f) (fun j => nth j (m_cols m) []).
Proof. exact demo_mislabelled. Qed.
Print Assumptions C65_columns_refuted.

(* ---- C66 ---- *)
Theorem C66_range : forall values levels calc qs (file : option (Mapping.mapped XR)) nos d,
  Mapping.run values levels calc qs file nos = Ok d -> Forall (Forall salinity_ok) (m_cols (la_mapped_sal d)).
Proof. exact range_any. Qed.
Print Assumptions C66_range.
(* only the salinities out of range are removed *)
Theorem C66_kept : forall r : R, (30 <= r <= 40)%R -> in_range (Fin r) = Fin r.
Proof. exact range_kept. Qed.
Print Assumptions C66_kept.
Example C66_witness : in_range (Fin 41) = NaN /\ in_range (Fin 35) = Fin 35 /\
  exists d, Mapping.run (map_values demo_settings) 1 demo_calc argsort None (map Fin demo_nos) = Ok d.
Proof.
  split; [|split; [apply range_kept; lra|exact (demo_run (map_values demo_settings) eq_refl)]].
  unfold in_range. change (nltb (nofZ 40) (Fin 41)) with (Rltb 40 41). unfold Rltb. destruct (Rlt_dec 40 41); [|lra].
  now rewrite orb_true_r.
Qed.

(* ---- C67 ---- *)
Theorem C67_padding : forall (T : Type) (N : Num T) (d : Mapping.mapped T) levels, well_formed d ->
  let k := if Nat.ltb (m_rows (la_mapped_sal d)) levels && negb (Nat.eqb (m_rows (la_mapped_sal d)) 0)
           then levels - m_rows (la_mapped_sal d) else 0 in
  exists d', load_variables (Some d) levels = Ok (mkState d' true (length (la_profile_no d))) /\
    padded k (la_ptmp d) (la_ptmp d') /\ padded k (la_mapped_sal d) (la_mapped_sal d') /\
    padded k (la_map_sal_errors d) (la_map_sal_errors d') /\ padded k (la_noise_sal d) (la_noise_sal d') /\
    padded k (la_signal_sal d) (la_signal_sal d') /\ la_profile_no d' = la_profile_no d /\
    (forall name, In name setting_names -> lookup name (settings d') = lookup name (settings d)) /\
    selected_hist d' = selected_hist d.
Proof. exact @load_existing. Qed.
Print Assumptions C67_padding.
(* a file of one level read for a source of three *)
Example C67_witness : exists d, Mapping.run (map_values demo_settings) 1 demo_calc argsort None (map Fin demo_nos) = Ok d /\ well_formed d /\
  m_rows (la_mapped_sal d) = 1.
Proof. exact demo_one_level. Qed.

(* ---- C86 ---- *)
(* a level is mapped in two stages, each the best unbiased estimate; the latitude scales of the
   configuration apply to latitudes, the longitude scales to longitudes *)
Theorem C86_two_stages : forall inv cfg large small g t l nv, inv_ok inv -> config_scales cfg large small ->
  scales_nonzero large -> scales_nonzero small -> has_depth large (g :: map place l) ->
  5 < length l -> noise_estimate (kept l) nv -> (0 < nv)%R ->
  exists value err, two_stage large small nv g (kept l) value err /\
    map_level inv cfg (fpoint g) t (hist_of (map known l))
    = Ok (Some (mkLevelOut t (Fin value) (Fin err) (Fin nv) (Fin (pop_var (map hp_sal (kept l))))
                           (map (fun q => (Fin (hp_long q), Fin (hp_lat q))) (kept l)))).
Proof. exact level_mapped. Qed.
Print Assumptions C86_two_stages.
Theorem C86_determined : forall large small nv g l v e v' e',
  two_stage large small nv g l v e -> two_stage large small nv g l v' e' -> v = v' /\ e = e'.
Proof. exact two_stage_unique. Qed.
Print Assumptions C86_determined.
Theorem C86_few_points : forall inv cfg g t l, length l <= 5 ->
  map_level inv cfg (fpoint g) t (hist_of (map known l)) = Ok None.
Proof. exact level_few. Qed.
Print Assumptions C86_few_points.
Example C86_witness : let large := mkScales 4 8 10 1 false in let small := mkScales 2 4 5 1 false in
  inv_ok exact_inv /\ config_scales demo_settings large small /\ scales_nonzero large /\ scales_nonzero small /\
  5 < length six /\ kept six = six /\ noise_estimate (kept six) (1 / 2).
Proof.
  cbv zeta. split; [exact exact_inv_ok|]. split; [unfold config_scales; cbn; auto 12|].
  split; [unfold scales_nonzero; cbn; repeat split; (discriminate || lra)|]. split; [unfold scales_nonzero; cbn; repeat split; (discriminate || lra)|].
  split; [cbn; lia|]. split; [exact six_kept|]. rewrite six_kept. exact six_noise.
Qed.

(* ---- C87 ---- *)
Theorem C87_shift : forall inv cfg large small g t l nv c, inv_ok inv -> config_scales cfg large small ->
  scales_nonzero large -> scales_nonzero small -> has_depth large (g :: map place l) ->
  5 < length l -> noise_estimate (kept l) nv -> (0 < nv)%R ->
  exists value err signal points,
    map_level inv cfg (fpoint g) t (hist_of (map known l)) = Ok (Some (mkLevelOut t (Fin value) (Fin err) (Fin nv) signal points)) /\
    map_level inv cfg (fpoint g) t (hist_of (map known (map (shifted c) l)))
    = Ok (Some (mkLevelOut t (Fin (value + c)) (Fin err) (Fin nv) signal points)).
Proof. exact level_shifted. Qed.
Print Assumptions C87_shift.
(* the hypotheses are those of C86_witness, and 0 < 1/2 *)

(* ---- C88 ---- *)
Theorem C88_equal_salinities : forall inv cfg large small g t l c, inv_zero inv -> config_scales cfg large small ->
  scales_nonzero large -> has_depth large (g :: map place l) -> 5 < length l -> (forall q, In q l -> hp_sal q = c) ->
  map_level inv cfg (fpoint g) t (hist_of (map known l)) = Raise LinAlgError.
Proof. exact level_equal. Qed.
Print Assumptions C88_equal_salinities.
(* one level that cannot be calculated: nothing is saved for the float *)
Theorem C88_one_failure : forall (T : Type) (N : Num T) (qs : list T -> list nat) cwd paths calc cfg (src : source T) float_dir float_name (st : store T) p,
  st (load_path cwd paths float_dir float_name) = None -> p < length (src_no src) ->
  (forall lev, calc src p = Ok lev -> exists n e, n < src_levels src /\ lev n = Raise e) ->
  exists e, update_salinity_mapping qs calc cwd paths cfg src float_dir float_name st = (Raise e, st).
Proof. exact @level_fails. Qed.
Print Assumptions C88_one_failure.
Example C88_witness : inv_zero (fun n A => Raise LinAlgError) /\
  (forall q, In q (repeat (mkHpoint 35 1000 10 20 2010 4000)%R 6) -> hp_sal q = 35%R) /\
  scales_nonzero (mkScales 4 8 10 1 false).
Proof.
  split; [intros n A _ _; reflexivity|]. split; [intros q Hq; apply repeat_spec in Hq; now subst|].
  unfold scales_nonzero; cbn; repeat split; (discriminate || lra).
Qed.

(* ---- C89 ---- *)
Theorem C89_nothing_mapped : forall (T : Type) (N : Num T) (qs : list T -> list nat) cwd paths calc cfg (src : source T) float_dir float_name (st : store T),
  sorting qs -> st (load_path cwd paths float_dir float_name) = None ->
  calculated (src_levels src) (calc src) (src_no src) ->
  (forall p n, p < length (src_no src) -> n < src_levels src -> outcome (calc src) p n = None) ->
  update_salinity_mapping qs calc cwd paths cfg src float_dir float_name st = (Raise UnboundLocalError, st).
Proof. exact @nothing_mapped. Qed.
Print Assumptions C89_nothing_mapped.
Theorem C89_older_file : forall (T : Type) (N : Num T) (qs : list T -> list nat) cwd paths calc cfg (src : source T) float_dir float_name (st : store T) d name,
  st (load_path cwd paths float_dir float_name) = Some d -> In name setting_names -> lookup name (settings d) = None ->
  update_salinity_mapping qs calc cwd paths cfg src float_dir float_name st = (Raise KeyError, st).
Proof. exact @older_file. Qed.
Print Assumptions C89_older_file.
Example C89_witness : calculated 1 (fun _ => Ok (fun _ => Ok None)) (map Fin demo_nos) /\
  (forall p n, outcome (T := XR) (fun _ => Ok (fun _ => Ok None)) p n = None) /\ In "use_saf"%string setting_names.
Proof.
  split; [|split; [reflexivity|cbn; auto 12]]. intros p _. eexists. split; [reflexivity|]. intros n _. now exists None.
Qed.

(* ---- C90 ---- *)
(* a profile without position, or without pressure except possibly the first one, is skipped *)
Theorem C90_skipped_profile : forall (T : Type) (N : Num T) (NT : NumT T) (rng : Type) (seed : Z -> rng) rand g0 qs inv np_interp sa ct tc
    interp2d tbase read_mat date_str cfg float_name (s : source T) i fd,
  get_float_data s i = Ok fd -> ~ mappable_profile fd ->
  exists lev, profile_levels seed rand g0 qs inv np_interp sa ct tc interp2d tbase read_mat date_str cfg float_name s i = Ok lev /\
    forall n, lev n = Ok None.
Proof. exact @profile_skipped. Qed.
Print Assumptions C90_skipped_profile.
Theorem C90_skipped_level : forall (T : Type) (N : Num T) (NT : NumT T) (rng : Type) (seed : Z -> rng) rand g0 qs inv np_interp sa ct tc
    interp2d tbase read_mat date_str cfg float_name (s : source T) i fd lev n sal pres,
  get_float_data s i = Ok fd ->
  profile_levels seed rand g0 qs inv np_interp sa ct tc interp2d tbase read_mat date_str cfg float_name s i = Ok lev ->
  nth_error (fd_sal fd) n = Some sal -> nth_error (fd_pres fd) n = Some pres ->
  nisnan sal = true \/ nleb (mc_p_exclude cfg) pres = false -> lev n = Ok None.
Proof. exact @level_excluded. Qed.
Print Assumptions C90_skipped_level.
(* one valid pressure, in the first entry *)
Example C90_witness : ~ mappable_profile (T := ZN) (mkFloatData (Some 52) (Some 15) (Some 2010) [Some 34; None] [Some 5; None] [Some 5; None] [Some 100; None])%Z.
Proof. intros (_ & _ & i & Hi & C). cbn in Hi. destruct i as [|[|i]]; [lia|discriminate|lia]. Qed.

(* ---- C91 ---- *)
(* the depths of the historical casts come in the order of the index; their positions (and data) in
   the order of the files, without the casts that have no data *)
Theorem C91_depths : forall (T : Type) (N : Num T) (NT : NumT T) (rng : Type) (seed : Z -> rng) rand g0 qs np_interp sa ct tc
    interp2d tbase read_mat date_str cfg float_name,
  NumNan T -> forall db, reads db read_mat -> forall other, excludes float_name other ->
  four_columns (mc_boxes cfg) -> forall fd z g, mappable_profile fd -> mc_use_saf cfg <> 1%Z ->
  best_history seed rand g0 qs np_interp sa ct tc interp2d tbase read_mat date_str cfg float_name fd z = Ok g ->
  exists boxes grid_z index,
    let cs := region_casts db (mc_db cfg) other boxes in
    let limit := nadd (nanmax (fd_pres fd)) (map_p_delta (mc_db cfg)) in
    Finders.find_25boxes (fd_long fd) (fd_lat fd) (mc_boxes cfg) = Ok boxes /\
    depths_of interp2d cs grid_z /\ (forall i, In i index -> i < length cs) /\
    gr_z g = map (fun i => nth i grid_z nnan) index /\
    (forall c0 rest, selected index cs = c0 :: rest -> levels limit c0 <> [] ->
       gr_lat g = map c_lat (filter (has_data limit) (selected index cs))).
Proof. exact @history_depths. Qed.
Print Assumptions C91_depths.
Theorem C91_aligned : forall (T : Type) (N : Num T) (NT : NumT T) (rng : Type) (seed : Z -> rng) rand g0 qs np_interp sa ct tc
    interp2d tbase read_mat date_str cfg float_name,
  NumNan T -> forall db, reads db read_mat -> forall other, excludes float_name other ->
  four_columns (mc_boxes cfg) -> forall fd z g, mappable_profile fd -> mc_use_saf cfg <> 1%Z ->
  best_history seed rand g0 qs np_interp sa ct tc interp2d tbase read_mat date_str cfg float_name fd z = Ok g ->
  exists boxes grid_z index,
    let cs := region_casts db (mc_db cfg) other boxes in
    let limit := nadd (nanmax (fd_pres fd)) (map_p_delta (mc_db cfg)) in
    Finders.find_25boxes (fd_long fd) (fd_lat fd) (mc_boxes cfg) = Ok boxes /\ depths_of interp2d cs grid_z /\
    gr_z g = map (fun i => nth i grid_z nnan) index /\
    (forall d, StronglySorted lt index -> index <> [] -> (forall i, In i index -> loadable (nth i cs d) = true /\ has_data limit (nth i cs d) = true) ->
       gr_lat g = map (fun i => c_lat (nth i cs d)) index).
Proof. exact @history_aligned. Qed.
Print Assumptions C91_aligned.
Example C91_witness : reads demo_db demo_read /\ excludes "3901960" demo_other /\
  four_columns (mc_boxes (demo_map 300)) /\ mappable_profile demo_fd /\ mc_use_saf (demo_map 300) <> 1%Z /\ exists g, demo_history 300 = Ok g.
Proof.
  split; [exact demo_reads|]. split; [exact demo_excludes|]. split; [exact demo_table_four|].
  split; [exact demo_mappable|]. split; [discriminate|]. destruct demo_depths as (g & E & _). eauto.
Qed.
(* over a sea floor whose depth is minus the latitude, the cast at latitude 54 gets the depth at 52 *)
Theorem C91_depths_refuted : exists g, demo_history 300 = Ok g /\
  gr_lat g = [Some 50; Some 51; Some 54]%Z /\ gr_z g = [Some (-50); Some (-51); Some (-52); Some (-54)]%Z.
Proof. exact demo_depths. Qed.
Print Assumptions C91_depths_refuted.

(* ---- C92 ---- *)
Theorem C92_failure : forall (T : Type) (N : Num T) (qs : list T -> list nat) cwd paths calc cfg (src : source T) float_dir float_name (st : store T) e st',
  update_salinity_mapping qs calc cwd paths cfg src float_dir float_name st = (Raise e, st') -> same_store st' st.
Proof. exact @failure_unchanged. Qed.
Print Assumptions C92_failure.
Theorem C92_one_file : forall (T : Type) (N : Num T) (qs : list T -> list nat) cwd paths calc cfg (src : source T) float_dir float_name (st : store T) o st',
  update_salinity_mapping qs calc cwd paths cfg src float_dir float_name st = (o, st') ->
  forall q, q <> save_path cwd paths float_name -> st' q = st q.
Proof. exact @one_file. Qed.
Print Assumptions C92_one_file.
(* other floats *)
Theorem C92_other_floats : forall (T : Type) (N : Num T) (qs : list T -> list nat) cwd paths calc cfg (src : source T) float_dir float_name other_dir other (st : store T) o st',
  plain_name (mp_prefix paths ++ float_name ++ mp_postfix paths)%string ->
  plain_name (mp_prefix paths ++ other ++ mp_postfix paths)%string -> other <> float_name ->
  no_directory other_dir ->
  update_salinity_mapping qs calc cwd paths cfg src float_dir float_name st = (o, st') ->
  st' (load_path cwd paths other_dir other) = st (load_path cwd paths other_dir other).
Proof. exact @other_floats. Qed.
Print Assumptions C92_other_floats.
Example C92_witness : plain_name (mp_prefix demo_paths ++ "3901960" ++ mp_postfix demo_paths) /\
  plain_name (mp_prefix demo_paths ++ "3901961" ++ mp_postfix demo_paths) /\ no_directory "/".
Proof. split; [|split]; [repeat split; discriminate|repeat split; discriminate|repeat constructor; auto]. Qed.
