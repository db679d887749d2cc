(* C144 *)
From Coq Require Import ZArith List Bool Reals Permutation.
From Verif Require Import Num Np Stats Helper MapProfile Spec_Stats Spec_FitCond Spec_Map Spec_Helper Spec_MapLevel Spec_Symm
  Proofs_MapLevel Proofs_MappingEx Proofs_Symm Proofs_Symm2 Proofs_SymmEx.
Import ListNotations.
Local Open Scope R_scope.

(* the order of the casts *)
Theorem C144_order : forall inv, inv_ok inv -> forall cfg large small, config_scales cfg large small -> scales_nonzero large -> scales_nonzero small ->
  forall g t l l' nv, has_depth large (g :: map place l) -> (5 < length l)%nat -> Permutation l l' ->
  noise_estimate (kept l) nv -> 0 < nv -> untied (kept l) ->
  exists value err signal points points',
    map_level inv cfg (fpoint g) t (hist_of (map known l)) = Ok (Some (mkLevelOut t (Fin value) (Fin err) (Fin nv) signal points)) /\
    map_level inv cfg (fpoint g) t (hist_of (map known l')) = Ok (Some (mkLevelOut t (Fin value) (Fin err) (Fin nv) signal points')) /\
    Permutation points points'.
Proof. exact level_order. Qed.
Print Assumptions C144_order.
(* with different salinities equally near to a cast the order matters *)
Theorem C144_order_refuted : Permutation northward southward /\
  forall inv cfg large small g t, inv_ok inv -> config_scales cfg large small -> scales_nonzero large -> scales_nonzero small -> has_depth large [g] ->
  exists o o', map_level inv cfg (fpoint g) t (hist_of (map known northward)) = Ok (Some o) /\
    map_level inv cfg (fpoint g) t (hist_of (map known southward)) = Ok (Some o') /\ lo_noise o = Fin (1 / 6) /\ lo_noise o' = Fin (1 / 12).
Proof. exact (conj turned order_matters). Qed.
Print Assumptions C144_order_refuted.
(* the unit of the salinities *)
Theorem C144_unit : forall inv, inv_ok inv -> forall cfg large small, config_scales cfg large small -> scales_nonzero large -> scales_nonzero small ->
  forall g t l nv a c, has_depth large (g :: map place l) -> (5 < length l)%nat -> noise_estimate (kept l) nv -> 0 < nv -> a <> 0 ->
  exists value err signal points,
    map_level inv cfg (fpoint g) t (hist_of (map known l)) = Ok (Some (mkLevelOut t (Fin value) (Fin err) (Fin nv) (Fin signal) points)) /\
    map_level inv cfg (fpoint g) t (hist_of (map known (map (in_unit a c) l)))
    = Ok (Some (mkLevelOut t (Fin (a * value + c)) (Fin (Rabs a * err)) (Fin (a ^ 2 * nv)) (Fin (a ^ 2 * signal)) points)).
Proof. exact level_unit. Qed.
Print Assumptions C144_unit.
(* the origin of longitudes and dates *)
Theorem C144_origin : forall inv, inv_ok inv -> forall cfg large small, config_scales cfg large small -> scales_nonzero large -> scales_nonzero small ->
  forall g t l nv x y, has_depth large (g :: map place l) -> (5 < length l)%nat -> noise_estimate (kept l) nv -> 0 < nv ->
  exists value err signal,
    map_level inv cfg (fpoint g) t (hist_of (map known l)) = Ok (Some (mkLevelOut t (Fin value) (Fin err) (Fin nv) signal (map (fun q => (Fin (hp_long q), Fin (hp_lat q))) (kept l)))) /\
    map_level inv cfg (fpoint (moved_point x y g)) t (hist_of (map known (map (moved x y) l)))
    = Ok (Some (mkLevelOut t (Fin value) (Fin err) (Fin nv) signal (map (fun q => (Fin (hp_long q + x), Fin (hp_lat q))) (kept l)))).
Proof. exact level_moved. Qed.
Print Assumptions C144_origin.
(* the hemisphere *)
Theorem C144_hemisphere : forall inv, inv_ok inv -> forall cfg large small, config_scales cfg large small -> scales_nonzero large -> scales_nonzero small ->
  forall g t l nv, has_depth large (g :: map place l) -> (5 < length l)%nat -> noise_estimate (kept l) nv -> 0 < nv ->
  (s_pv large = true -> off_equator (g :: map place l)) ->
  exists value err signal,
    map_level inv cfg (fpoint g) t (hist_of (map known l)) = Ok (Some (mkLevelOut t (Fin value) (Fin err) (Fin nv) signal (map (fun q => (Fin (hp_long q), Fin (hp_lat q))) (kept l)))) /\
    map_level inv cfg (fpoint (mirrored_point g)) t (hist_of (map known (map mirrored l)))
    = Ok (Some (mkLevelOut t (Fin value) (Fin err) (Fin nv) signal (map (fun q => (Fin (hp_long q), Fin (- hp_lat q))) (kept l)))).
Proof. exact level_mirror. Qed.
Print Assumptions C144_hemisphere.
(* the casts of C86_witness, with its scales and noise *)
Example C144_witness : untied (kept six) /\ noise_estimate (kept six) (1 / 2) /\ (5 < length six)%nat.
Proof. rewrite six_kept. split; [exact six_untied|]. split; [exact six_noise|]. cbv. auto. Qed.
