(* C141 *)
From Coq Require Import String Ascii.
From Coq Require Import ZArith List Bool Reals.
From Verif Require Import Num Np Topo Fetchers Saf MapProfile Mapping Spec_Stats Spec_FitCond Spec_Mapping Spec_Bias Spec_Quota Proofs_MappingEx Proofs_Drift5 Proofs_BiasEx Proofs_Quota Proofs_QuotaEx.
Import Mapping ListNotations.
Local Open Scope nat_scope.

(* no profile has more casts in reach than either quota: generator, its state, the sort and the quota do not matter *)
Theorem C141_random : forall (T : Type) (N : Num T) (NT : NumT T) np_interp sa ct tc interp2d tbase read_mat date_str (cfg : map_config T) float_name inv
    (rng rng' : Type) (seed : Z -> rng) rand g0 qs (seed' : Z -> rng') rand' g0' qs' sort s m cwd paths float_dir st,
  (forall i fd, get_float_data s i = Ok fd ->
     at_most interp2d tbase read_mat date_str cfg float_name (mc_max_casts cfg) fd /\ at_most interp2d tbase read_mat date_str cfg float_name m fd) ->
  update_salinity_mapping sort (profile_levels seed' rand' g0' qs' inv np_interp sa ct tc interp2d tbase read_mat date_str (with_quota m cfg) float_name)
    cwd paths (with_quota m cfg) s float_dir float_name st
  = update_salinity_mapping sort (profile_levels seed rand g0 qs inv np_interp sa ct tc interp2d tbase read_mat date_str cfg float_name)
    cwd paths cfg s float_dir float_name st.
Proof. exact @run_quota. Qed.
Print Assumptions C141_random.
(* and the states in which the profiles find the generator never do *)
Theorem C141_state : forall (T : Type) (N : Num T) (NT : NumT T) (rng : Type) (seed : Z -> rng) rand (g g' : nat -> rng) qs inv np_interp sa ct tc interp2d tbase read_mat date_str
    (cfg : map_config T) float_name sort s cwd paths float_dir st,
  update_salinity_mapping sort (fun s i => profile_levels seed rand (g' i) qs inv np_interp sa ct tc interp2d tbase read_mat date_str cfg float_name s i)
    cwd paths cfg s float_dir float_name st
  = update_salinity_mapping sort (fun s i => profile_levels seed rand (g i) qs inv np_interp sa ct tc interp2d tbase read_mat date_str cfg float_name s i)
    cwd paths cfg s float_dir float_name st.
Proof. exact @run_state. Qed.
Print Assumptions C141_state.
(* another MAP_P_EXCLUDE: the levels above it are left out, all others are what they were *)
Theorem C141_exclude : forall (T : Type) (N : Num T) (NT : NumT T) np_interp sa ct tc interp2d tbase read_mat date_str (cfg : map_config T) float_name inv
    (rng : Type) (seed : Z -> rng) rand g0 qs s i e,
  (forall x, profile_levels seed rand g0 qs inv np_interp sa ct tc interp2d tbase read_mat date_str cfg float_name s i = Raise x ->
     profile_levels seed rand g0 qs inv np_interp sa ct tc interp2d tbase read_mat date_str (with_exclude e cfg) float_name s i = Raise x) /\
  forall lev, profile_levels seed rand g0 qs inv np_interp sa ct tc interp2d tbase read_mat date_str cfg float_name s i = Ok lev ->
  exists lev', profile_levels seed rand g0 qs inv np_interp sa ct tc interp2d tbase read_mat date_str (with_exclude e cfg) float_name s i = Ok lev' /\
    forall fd n sal pres, get_float_data s i = Ok fd -> nth_error (fd_sal fd) n = Some sal -> nth_error (fd_pres fd) n = Some pres ->
      (nleb e pres = false -> lev' n = Ok None) /\ (nleb (mc_p_exclude cfg) pres = true -> nleb e pres = true -> lev' n = lev n).
Proof. exact @profile_exclude. Qed.
Print Assumptions C141_exclude.
(* the float between six casts: 300 or 6 casts make no difference *)
Example C141_witness : exists box, forall m i fd, (6 <= m)%Z -> get_float_data six_source i = Ok fd -> at_most six_sea flat_sea six_read six_date (six_cfg box) "3901960" m fd.
Proof. exact six_few. Qed.
Example C141_run_witness : exists box read st' d, six_mapping box read (fun _ => None) = (Ok tt, st') /\
  st' (save_path [] demo_paths "3901960"%string) = Some d /\ nth 1 (nth 0 (m_cols (la_mapped_sal d)) []) NaN = Fin 35.
Proof. destruct six_mapped as (box & read & st' & d & _ & E & ED & _ & E1). exists box, read, st', d. exact (conj E (conj ED E1)). Qed.
Example C141_exclude_witness : exists box lev o, six_levels box six_source 0 = Ok lev /\ lev 1 = Ok (Some o) /\ mc_p_exclude (six_cfg box) = Fin 500 /\
  get_float_data six_source 0 = Ok six_float /\ nth_error (fd_sal six_float) 1 = Some (Fin 35) /\ nth_error (fd_pres six_float) 1 = Some (Fin 1000).
Proof. destruct six_profile as (box & lev & o & EL & _ & E1 & _). exists box, lev, o. repeat split; assumption || reflexivity. Qed.
