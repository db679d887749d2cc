(* C139 *)
From Coq Require Import String Ascii.
From Coq Require Import ZArith List Bool Reals Lra.
From Verif Require Import Num Np Utilities Finders Stats Topo Fetchers Spec_Fetchers Saf Helper MapProfile Mapping Spec_Finders Spec_Stats Spec_FitCond Spec_Map Spec_Topo Spec_Depth Spec_Helper
  Spec_Interp Spec_MapLevel Spec_Mapping Spec_Bias Spec_Seam Spec_Whole Spec_Completes Proofs_Completes2 Proofs_Completes4 Proofs_MappingEx Proofs_FetchersEx Proofs_FindersEx Proofs_FC11 Proofs_Drift5 Proofs_BiasEx Proofs_SeamEx Proofs_CompletesEx.
Import Helper Spec_Fetchers ListNotations.
Local Open Scope R_scope.

(* one profile: no level fails, and a level is mapped exactly when more than five casts give a point *)
Theorem C139_profile : forall (rng : Type) (seed : Z -> rng) rand g0 qs inv np_interp sa ct tc interp2d tbase read_mat date_str cfg float_name,
  rand_ok rand -> argsort_ok qs -> inv_ok inv -> tbase_file tbase -> answers interp2d ->
  forall large small, config_scales cfg large small -> scales_nonzero large -> scales_nonzero small -> s_age large <> 0 /\ s_age small <> 0 ->
  s_pv large = false -> (mc_max_casts cfg = 3 \/ 5 <= mc_max_casts cfg)%Z -> mc_use_saf cfg <> 1%Z ->
  forall delta ex, mc_p_delta cfg = Fin delta -> mc_p_exclude cfg = Fin ex ->
  forall db, reads db read_mat -> forall other, excludes float_name other ->
  four_columns (mc_boxes cfg) -> length (mc_boxes cfg) = 648%nat ->
  forall s i fd cs pos, get_float_data s i = Ok fd -> ready seed rand g0 qs interp2d date_str cfg large delta ex db other fd cs pos ->
  exists lev, profile_levels seed rand g0 qs inv np_interp sa ct tc interp2d tbase read_mat date_str cfg float_name s i = Ok lev /\
    forall n, (n < length (fd_sal fd))%nat -> (lev n = Ok None \/ exists o, lev n = Ok (Some o) /\ lo_points o <> []) /\
    forall t p, mapped_at ex fd n t p -> exists pts, level_points seed rand g0 qs interp2d date_str cfg delta fd cs pos t p pts /\
      ((length pts <= 5)%nat -> lev n = Ok None) /\ ((5 < length pts)%nat -> exists o, lev n = Ok (Some o) /\ lo_points o <> []).
Proof. exact @profile_completes. Qed.
Print Assumptions C139_profile.
(* the whole float: the mapping ends and the file is written *)
Theorem C139_run : forall (rng : Type) (seed : Z -> rng) rand g0 qs inv np_interp sa ct tc interp2d tbase read_mat date_str cfg float_name,
  rand_ok rand -> argsort_ok qs -> inv_ok inv -> tbase_file tbase -> answers interp2d ->
  forall large small, config_scales cfg large small -> scales_nonzero large -> scales_nonzero small -> s_age large <> 0 /\ s_age small <> 0 ->
  s_pv large = false -> (mc_max_casts cfg = 3 \/ 5 <= mc_max_casts cfg)%Z -> mc_use_saf cfg <> 1%Z ->
  forall delta ex, mc_p_delta cfg = Fin delta -> mc_p_exclude cfg = Fin ex ->
  forall db, reads db read_mat -> forall other, excludes float_name other ->
  four_columns (mc_boxes cfg) -> length (mc_boxes cfg) = 648%nat ->
  forall sort, sorting sort ->
  forall cwd paths float_dir src st, st (load_path cwd paths float_dir float_name) = None ->
  (forall i, (i < length (src_no src))%nat -> exists fd, get_float_data src i = Ok fd /\ length (fd_sal fd) = src_levels src /\
     (mappable_profile fd -> exists cs pos, ready seed rand g0 qs interp2d date_str cfg large delta ex db other fd cs pos)) ->
  (exists i fd cs pos n t p, (i < length (src_no src))%nat /\ get_float_data src i = Ok fd /\ ready seed rand g0 qs interp2d date_str cfg large delta ex db other fd cs pos /\
     mapped_at ex fd n t p /\ forall pts, level_points seed rand g0 qs interp2d date_str cfg delta fd cs pos t p pts -> (5 < length pts)%nat) ->
  exists st' d, update_salinity_mapping sort (profile_levels seed rand g0 qs inv np_interp sa ct tc interp2d tbase read_mat date_str cfg float_name) cwd paths cfg src float_dir float_name st = (Ok tt, st') /\
    st' (save_path cwd paths float_name) = Some d.
Proof. exact @mapping_completes. Qed.
Print Assumptions C139_run.
(* a float between six casts that meets all of it *)
Example C139_setting_witness : rand_ok (fun (_ : unit) n => (repeat (Fin 0) n, tt)) /\ argsort_ok (@argsort XR _) /\ inv_ok exact_inv /\ tbase_file flat_sea /\ answers six_sea /\
  reads six_db six_read /\ excludes "3901960"%string demo_other /\ sorting (@argsort XR _).
Proof.
  split; [exact six_rand|]. split; [exact argsort_is_ok|]. split; [exact exact_inv_ok|]. split; [exact flat_file|]. split; [exact six_answers|]. split; [exact six_reads|]. split; [exact demo_excludes|exact argsort_sorting].
Qed.
Example C139_ready_witness : exists box, four_columns (mc_boxes (six_cfg box)) /\ length (mc_boxes (six_cfg box)) = 648%nat /\
  get_float_data six_source 0 = Ok six_float /\ length (fd_sal six_float) = src_levels six_source /\ mappable_profile six_float /\
  ready (fun _ => tt) (fun _ n => (repeat (Fin 0) n, tt)) tt argsort six_sea six_date (six_cfg box) six_large 250 500 six_db demo_other six_float (map six_cast (seq 0 6)) (fun _ => 10) /\
  mapped_at 500 six_float 1 6 1000 /\
  forall pts, level_points (fun _ => tt) (fun _ n => (repeat (Fin 0) n, tt)) tt argsort six_sea six_date (six_cfg box) 250 six_float (map six_cast (seq 0 6)) (fun _ => 10) 6 1000 pts -> (5 < length pts)%nat.
Proof. exact six_completes. Qed.
Example C139_run_witness : exists box st' d, six_mapping box six_read (fun _ => None) = (Ok tt, st') /\ st' (save_path [] demo_paths "3901960"%string) = Some d.
Proof. exact six_ends. Qed.
