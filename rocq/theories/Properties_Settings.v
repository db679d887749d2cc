(* C140 *)
From Coq Require Import String Ascii.
From Coq Require Import ZArith List Bool Reals.
From Verif Require Import Num Np Helper MapProfile Mapping Spec_Stats Spec_FitCond Spec_Mapping Spec_Bias Spec_Settings Proofs_Settings Proofs_FC11 Proofs_MappingEx Proofs_BiasEx.
Import ListNotations.
Local Open Scope nat_scope.

Theorem C140_settings : forall qs, sorting qs -> forall calc cwd paths cfg src float_dir float_name rs st st' d, src_no src = map Fin rs -> NoDup rs ->
  st (load_path cwd paths float_dir float_name) = None ->
  update_salinity_mapping qs calc cwd paths cfg src float_dir float_name st = (Ok tt, st') ->
  st' (save_path cwd paths float_name) = Some d ->
  forall name v, In (name, v) (run_settings cfg) -> exists col, lookup name (settings d) = Some col /\ length col = length rs /\
  forall j p, j < length rs -> p < length rs -> nth j (la_profile_no d) NaN = Fin (nth p rs 0%R) ->
    (mapped_profile (calc src) (src_levels src) p -> nth j col NaN = v) /\ (~ mapped_profile (calc src) (src_levels src) p -> nth j col NaN = NaN).
Proof. exact settings_recorded. Qed.
Print Assumptions C140_settings.
(* the run over six casts, which maps a level of its only profile *)
Example C140_witness : sorting (@argsort XR _) /\ src_no six_source = map Fin [1%R] /\ NoDup [1%R] /\ exists box read st' d, six_mapping box read (fun _ => None) = (Ok tt, st') /\
  st' (save_path [] demo_paths "3901960"%string) = Some d /\ nth 1 (nth 0 (m_cols (la_mapped_sal d)) []) NaN = Fin 35.
Proof.
  split; [exact argsort_sorting|]. split; [reflexivity|]. split; [repeat constructor; intros []|].
  destruct six_mapped as (box & read & st' & d & _ & E & ED & _ & E1). exists box, read, st', d. exact (conj E (conj ED E1)).
Qed.
Example C140_level_witness : exists box, mapped_profile (six_levels box six_source) 2 0.
Proof. destruct six_profile as (box & lev & o & EL & _ & E1 & _). exists box, lev, 1, o. exact (conj EL (conj (le_n 2) E1)). Qed.
Example C140_values_witness : In ("scale_age_small"%string, Fin 5) (run_settings demo_settings) /\ In ("scale_age_large"%string, Fin 10) (run_settings demo_settings).
Proof. split; cbn; tauto. Qed.
