(* C147 *)
From Coq Require Import ZArith List Bool Reals Lra Lia.
From Verif Require Import Num Np Stats Wrangling LinR Spec_Finders Spec_Stats Spec_FitCond Spec_Map Helper Spec_Helper MapProfile Spec_MapLevel
  Proofs_FC11 Proofs_Map2 Proofs_MapLevel Proofs_MappingEx Proofs_Bounds Proofs_BoundsEx.
Import Helper ListNotations.
Local Open Scope R_scope.

(* one mapping by map_data_grid: its error, how far its value is from the mean of the salinities, and
   what it leaves of them: residuals of mean zero that scatter no more than the salinities *)
Theorem C147_mapping : forall inv, inv_ok inv -> forall s sv nv g data sal, mappable s sv nv g data -> 0 < nv -> length sal = length data ->
  exists v e vs es, mapped inv s sv nv sal g data = Ok (Fin v, Fin e, map Fin vs, map Fin es) /\
    nv / INR (length data) <= e ^ 2 <= 2 * sv + nv / INR (length data) /\
    nv * (v - mean_of sal) ^ 2 <= 2 * sv * (INR (length data) * pop_var sal) /\
    mean_of vs = mean_of sal /\
    pop_var (map (fun q => fst q - snd q) (combine sal vs)) <= pop_var sal.
Proof. exact stage_bounds. Qed.
Print Assumptions C147_mapping.
(* a mapped level, in terms of the noise, the signal and the points recorded with it *)
Theorem C147_level : forall inv cfg large small g t l nv, inv_ok inv -> config_scales cfg large small ->
  scales_nonzero large -> scales_nonzero small -> has_depth large (g :: map place l) ->
  (5 < length l)%nat -> noise_estimate (Spec_MapLevel.kept l) nv -> 0 < nv ->
  exists value err sv points, map_level inv cfg (fpoint g) t (hist_of (map known l))
    = Ok (Some (mkLevelOut t (Fin value) (Fin err) (Fin nv) (Fin sv) points)) /\
    let n := INR (length points) in
    0 < n /\ 0 <= err /\ 2 * nv / n <= err ^ 2 <= 4 * sv + 2 * nv / n /\
    nv * (value - mean_of (map hp_sal (Spec_MapLevel.kept l))) ^ 2 <= 8 * n * sv ^ 2.
Proof. exact level_bounds. Qed.
Print Assumptions C147_level.
(* the same of the value and error that C138 finds in the file *)
Theorem C147_two_stages : forall large small nv g l value err, scales_nonzero large -> scales_nonzero small -> has_depth large (g :: map place l) ->
  s_pv small = s_pv large -> l <> [] -> 0 < nv -> two_stage large small nv g l value err ->
  let n := INR (length l) in let sv := pop_var (map hp_sal l) in
  0 <= err /\ 2 * nv / n <= err ^ 2 <= 4 * sv + 2 * nv / n /\ nv * (value - mean_of (map hp_sal l)) ^ 2 <= 8 * n * sv ^ 2.
Proof. exact two_stage_bounds. Qed.
Print Assumptions C147_two_stages.

(* six casts, alternately 35 and 36, with noise 1/2 *)
Example C147_witness : exists value err points,
  map_level exact_inv demo_settings (fpoint (mkPoint 2 10 2010 4000)) (Fin 6) (hist_of (map known six))
    = Ok (Some (mkLevelOut (Fin 6) (Fin value) (Fin err) (Fin (1 / 2)) (Fin (1 / 4)) points)) /\
  1 / 6 <= err ^ 2 <= 7 / 6 /\ (value - 71 / 2) ^ 2 <= 6.
Proof. exact six_bounds. Qed.
Example C147_mapping_witness : mappable demo_scales 1 (1 / 10) demo_float demo_data /\ (1 < length demo_data)%nat.
Proof. split; [apply (Proofs_Map2.demo_mappable (1 / 10)); lra|cbn; lia]. Qed.
