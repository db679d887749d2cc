(* The bounds of C147 for the six casts of C86 *)
From Coq Require Import ZArith List Bool Reals Lra Lia.
From Verif Require Import Num Np Stats Wrangling LinR Spec_Finders Spec_Stats Spec_FitCond Spec_Map Helper Spec_Helper MapProfile Spec_MapLevel
  Proofs_FC11 Proofs_MapLevel Proofs_MappingEx Proofs_Bounds.
Import Helper ListNotations.
Local Open Scope R_scope.

Lemma six_bounds : exists value err points,
  map_level exact_inv demo_settings (fpoint (mkPoint 2 10 2010 4000)) (Fin 6) (hist_of (map known six))
    = Ok (Some (mkLevelOut (Fin 6) (Fin value) (Fin err) (Fin (1 / 2)) (Fin (1 / 4)) points)) /\
  1 / 6 <= err ^ 2 <= 7 / 6 /\ (value - 71 / 2) ^ 2 <= 6.
Proof.
  set (large := mkScales 4 8 10 1 false). set (small := mkScales 2 4 5 1 false).
  assert (HC : config_scales demo_settings large small) by (unfold config_scales; cbn; auto 12).
  assert (NL : scales_nonzero large) by (unfold scales_nonzero; cbn; repeat split; (discriminate || lra)).
  assert (NS : scales_nonzero small) by (unfold scales_nonzero; cbn; repeat split; (discriminate || lra)).
  assert (HD : has_depth large (mkPoint 2 10 2010 4000 :: map place six)) by (intros E; discriminate E).
  assert (EN : noise_estimate (Spec_MapLevel.kept six) (1 / 2)) by (rewrite six_kept; exact six_noise).
  assert (H5 : (5 < length six)%nat) by (cbn; lia).
  destruct (level_mapped exact_inv demo_settings large small _ (Fin 6) six (1 / 2) exact_inv_ok HC NL NS HD H5 EN ltac:(lra)) as (value & err & TS & EM).
  rewrite six_kept in *.
  assert (M : mean_of (map hp_sal six) = 71 / 2) by (unfold mean_of, six; cbn; lra).
  assert (V : pop_var (map hp_sal six) = 1 / 4) by (unfold pop_var; rewrite M; unfold mean_of, six; cbn; lra).
  exists value, err, (map (fun q => (Fin (hp_long q), Fin (hp_lat q))) six). rewrite V in EM. split; [exact EM|].
  assert (NE : six <> []) by discriminate.
  destruct (two_stage_bounds large small (1 / 2) _ six value err NL NS HD eq_refl NE ltac:(lra) TS) as (_ & [B1 B2] & B3).
  rewrite V in B2, B3. rewrite M in B3. replace (INR (length six)) with 6 in * by (cbn; lra). lra.
Qed.
