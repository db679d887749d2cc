(* Property C134: a bias of the reference salinities in the mapped salinities *)
From Coq Require Import String Ascii.
From Coq Require Import ZArith List Bool Reals Lra.
From Verif Require Import Num Np Topo Fetchers MapProfile Mapping Spec_Stats Spec_FitCond Spec_Map Spec_MapLevel Spec_Mapping Spec_Bias
  Proofs_Mapping4 Proofs_MappingEx Proofs_FC11 Proofs_Drift5 Proofs_Bias3 Proofs_Bias4 Proofs_BiasEx.
Import Mapping ListNotations.
Local Open Scope nat_scope.

(* ---- C134 ---- *)
(* the levels of a profile *)
Theorem C134_profile : forall (rng : Type) (seed : Z -> rng) rand g0 qs inv np_interp sa ct tc interp2d tbase read_mat date_str cfg float_name,
  inv_ok inv -> forall large small, config_scales cfg large small -> scales_nonzero large -> scales_nonzero small ->
  mc_use_saf cfg <> 1%Z -> positions_known read_mat -> soundings interp2d (s_pv large) -> forall c s i, float_known s ->
  (forall e, profile_levels seed rand g0 qs inv np_interp sa ct tc interp2d tbase read_mat date_str cfg float_name s i = Raise e ->
     profile_levels seed rand g0 qs inv np_interp sa ct tc interp2d tbase (biased_database c read_mat) date_str cfg float_name s i = Raise e) /\
  (forall lev, profile_levels seed rand g0 qs inv np_interp sa ct tc interp2d tbase read_mat date_str cfg float_name s i = Ok lev ->
     exists lev', profile_levels seed rand g0 qs inv np_interp sa ct tc interp2d tbase (biased_database c read_mat) date_str cfg float_name s i = Ok lev' /\
       forall n, same_level c (lev n) (lev' n)).
Proof. exact @profile_raised. Qed.
Print Assumptions C134_profile.
(* the mapped file of the float *)
Theorem C134_file : forall (rng : Type) (seed : Z -> rng) rand g0 qs inv np_interp sa ct tc interp2d tbase date_str cfg float_dir float_name
    large small read_mat c cwd paths src (st st' : store XR) d,
  inv_ok inv -> config_scales cfg large small -> scales_nonzero large -> scales_nonzero small -> mc_use_saf cfg <> 1%Z ->
  positions_known read_mat -> soundings interp2d (s_pv large) -> sorting qs -> float_known src ->
  st (load_path cwd paths float_dir float_name) = None ->
  update_salinity_mapping qs (profile_levels seed rand g0 qs inv np_interp sa ct tc interp2d tbase read_mat date_str cfg float_name)
    cwd paths cfg src float_dir float_name st = (Ok tt, st') ->
  st' (save_path cwd paths float_name) = Some d -> positive_noise d ->
  exists st'' d',
    update_salinity_mapping qs (profile_levels seed rand g0 qs inv np_interp sa ct tc interp2d tbase (biased_database c read_mat) date_str cfg float_name)
      cwd paths cfg src float_dir float_name st = (Ok tt, st'') /\
    st'' (save_path cwd paths float_name) = Some d' /\ same_but_salinity d d' /\
    forall j l x, nth l (nth j (m_cols (la_mapped_sal d)) []) NaN = Fin x -> (30 <= x + c <= 40)%R ->
      nth l (nth j (m_cols (la_mapped_sal d')) []) NaN = Fin (x + c).
Proof. exact @store_raised. Qed.
Print Assumptions C134_file.
(* one profile, two levels, six casts: the second level is mapped to 35 with the noise 1/2 *)
Example C134_witness : inv_ok exact_inv /\ sorting (T := XR) argsort /\ (forall box, config_scales (six_cfg box) six_large six_small) /\
  scales_nonzero six_large /\ scales_nonzero six_small /\ soundings six_sea (s_pv six_large) /\ float_known six_source /\
  exists box read st' d, positions_known read /\ six_mapping box read (fun _ => None) = (Ok tt, st') /\
    st' (save_path [] demo_paths "3901960") = Some d /\ positive_noise d /\ nth 1 (nth 0 (m_cols (la_mapped_sal d)) []) NaN = Fin 35.
Proof.
  split; [exact exact_inv_ok|]. split; [exact argsort_sorting|]. split; [intros box; exact (proj1 (six_scales box))|].
  split; [exact (proj1 (proj2 (six_scales 0)))|]. split; [exact (proj2 (proj2 (six_scales 0)))|].
  split; [exact (proj1 (proj2 six_known))|]. split; [exact (proj2 (proj2 six_known))|]. exact six_mapped.
Qed.
