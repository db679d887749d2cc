(* Properties C135, C136: the data of the float that the mapping depends on *)
From Coq Require Import String Ascii.
From Coq Require Import ZArith List Bool Reals Permutation.
From Verif Require Import Num Np Topo Fetchers Saf MapProfile Mapping Spec_Saf Spec_Mapping Spec_Own Spec_Bias DemoNum
  Proofs_MappingEx Proofs_BiasEx Proofs_Own Proofs_Own2 Proofs_Own3 Proofs_OwnEx.
Import Mapping ListNotations.
Local Open Scope nat_scope.

(* ---- C135 ---- *)
Theorem C135_own_salinity : forall (T : Type) (N : Num T) (NT : NumT T) (rng : Type) (seed : Z -> rng) rand g0 qs inv np_interp sa ct tc
    interp2d tbase read_mat date_str (cfg : map_config T) float_name s s' cwd paths float_dir st,
  no_front cfg s -> other_salinities s s' ->
  update_salinity_mapping qs (profile_levels seed rand g0 qs inv np_interp sa ct tc interp2d tbase read_mat date_str cfg float_name)
    cwd paths cfg s' float_dir float_name st
  = update_salinity_mapping qs (profile_levels seed rand g0 qs inv np_interp sa ct tc interp2d tbase read_mat date_str cfg float_name)
    cwd paths cfg s float_dir float_name st.
Proof. exact @store_own. Qed.
Print Assumptions C135_own_salinity.
Example C135_witness : other_salinities six_source six_other /\ (forall box, no_front (six_cfg box) six_source) /\
  exists box read st' d, six_mapping box read (fun _ => None) = (Ok tt, st') /\ st' (save_path [] demo_paths "3901960") = Some d /\
    nth 1 (nth 0 (m_cols (la_mapped_sal d)) []) NaN = Fin 35.
Proof.
  split; [exact (proj1 six_other_ok)|]. split; [exact (proj2 six_other_ok)|].
  destruct six_mapped as (box & read & st' & d & _ & A & B & _ & C). exists box, read, st', d. auto.
Qed.
(* with the frontal criterion: other salinities of the float, the same everywhere else, put it on the other side *)
Theorem C135_frontal_criterion_refuted : exists np_interp sa ct tc saf (g cold warm : grid ZN) lat pres tmp sal sal',
  Forall2 same_kind sal sal' /\ cold <> warm /\
  frontal_constraint_saf np_interp sa ct tc saf g (mkFloat lat pres tmp sal) = Ok cold /\
  frontal_constraint_saf np_interp sa ct tc saf g (mkFloat lat pres tmp sal') = Ok warm.
Proof.
  do 13 eexists. split; [|split; [|exact other_side]]; [repeat constructor|intros E; discriminate E].
Qed.
Print Assumptions C135_frontal_criterion_refuted.

(* ---- C136 ---- *)
Theorem C136_level : forall (T : Type) (N : Num T) (NT : NumT T) (rng : Type) (seed : Z -> rng) rand g0 qs inv np_interp sa ct tc
    interp2d tbase read_mat date_str (cfg : map_config T) float_name s s' i n lev lev',
  no_front cfg s -> same_station s s' i -> same_sample s s' i n ->
  profile_levels seed rand g0 qs inv np_interp sa ct tc interp2d tbase read_mat date_str cfg float_name s i = Ok lev ->
  profile_levels seed rand g0 qs inv np_interp sa ct tc interp2d tbase read_mat date_str cfg float_name s' i = Ok lev' ->
  lev' n = lev n.
Proof. exact @level_own. Qed.
Print Assumptions C136_level.
(* the entries of the mapped file: own j is the profile in column j, which depends on the profile numbers only *)
Theorem C136_file : forall (T : Type) (N : Num T) (NT : NumT T) (rng : Type) (seed : Z -> rng) rand g0 qs inv np_interp sa ct tc
    interp2d tbase read_mat date_str, sorting qs -> forall nos : list T, exists own : nat -> nat,
  Permutation (map own (seq 0 (length nos))) (seq 0 (length nos)) /\
  forall cfg s s' cwd paths float_dir float_name (st st1 st2 : store T) d d',
  no_front cfg s -> src_no s = nos -> src_no s' = nos -> src_levels s' = src_levels s ->
  st (load_path cwd paths float_dir float_name) = None ->
  update_salinity_mapping qs (profile_levels seed rand g0 qs inv np_interp sa ct tc interp2d tbase read_mat date_str cfg float_name)
    cwd paths cfg s float_dir float_name st = (Ok tt, st1) ->
  update_salinity_mapping qs (profile_levels seed rand g0 qs inv np_interp sa ct tc interp2d tbase read_mat date_str cfg float_name)
    cwd paths cfg s' float_dir float_name st = (Ok tt, st2) ->
  st1 (save_path cwd paths float_name) = Some d -> st2 (save_path cwd paths float_name) = Some d' ->
  la_profile_no d' = la_profile_no d /\
  forall j l, j < length nos -> l < src_levels s -> same_station s s' (own j) -> same_sample s s' (own j) l -> same_entry d d' j l.
Proof. exact @file_own. Qed.
Print Assumptions C136_file.
(* marking salinities as missing removes these levels and nothing else *)
Theorem C136_marked : forall (T : Type) (N : Num T) (NT : NumT T) (rng : Type) (seed : Z -> rng) rand g0 qs inv np_interp sa ct tc
    interp2d tbase read_mat date_str (cfg : map_config T) float_name s s' i lev,
  no_front cfg s -> marked_source s s' i ->
  profile_levels seed rand g0 qs inv np_interp sa ct tc interp2d tbase read_mat date_str cfg float_name s i = Ok lev ->
  exists lev',
    profile_levels seed rand g0 qs inv np_interp sa ct tc interp2d tbase read_mat date_str cfg float_name s' i = Ok lev' /\
    forall n x y, nth_error (nth i (src_sal s) []) n = Some x -> nth_error (nth i (src_sal s') []) n = Some y ->
      (missing y -> n < length (nth i (src_pres s) []) -> lev' n = Ok None) /\ (~ missing y -> lev' n = lev n).
Proof. exact @profile_marked. Qed.
Print Assumptions C136_marked.
Example C136_witness : (forall box, no_front (six_cfg box) six_source) /\ marked_source six_source six_marked 0 /\
  same_station six_source six_marked 0 /\ same_sample six_source six_marked 0 1 /\
  exists box lev lev' o, six_levels box six_source 0 = Ok lev /\ lev 1 = Ok (Some o) /\ lo_noise o = Fin (1 / 2) /\
    six_levels box six_marked 0 = Ok lev' /\ lev' 0 = Ok None /\ lev' 1 = Ok (Some o).
Proof.
  split; [exact (proj2 six_other_ok)|]. destruct six_marked_ok as (A & B & C). split; [exact A|]. split; [exact B|]. split; [exact C|].
  exact six_marked_run.
Qed.
