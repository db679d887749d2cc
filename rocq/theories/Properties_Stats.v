(* Properties C28-C35: the variances and covariances of pyowc/core/stats.py *)
From Coq Require Import ZArith List Bool Reals Lra Lia Permutation.
From Verif Require Import Num Np NumFacts Finders Stats Spec_Utilities Spec_Finders Spec_Stats LinR
  Proofs_Finders Proofs_Stats1 Proofs_Stats2 Proofs_Stats3 Proofs_StatsEx Proofs_Witness.
Import ListNotations.
Local Open Scope R_scope.

(* ---- C28 ---- *)
Theorem C28_signal_variance : forall l : list (option R),
  (somes l = [] -> signal_variance (map oX l) = Raise RuntimeError) /\
  (somes l <> [] -> signal_variance (map oX l) = Ok (Fin (pop_var (somes l)))).
Proof. exact signal_variance_value. Qed.
Print Assumptions C28_signal_variance.

Theorem C28_nonneg : forall l, 0 <= pop_var l.
Proof. exact pop_var_nonneg. Qed.
Print Assumptions C28_nonneg.
Theorem C28_zero : forall l, l <> [] -> (pop_var l = 0 <-> forall x y, In x l -> In y l -> x = y).
Proof. exact pop_var_zero. Qed.
Print Assumptions C28_zero.
Theorem C28_shift : forall l c,
  signal_variance (map oX (map (option_map (fun x => x + c)) l)) = signal_variance (map oX l).
Proof. exact signal_shift. Qed.
Print Assumptions C28_shift.
Theorem C28_scale : forall l c v, signal_variance (map oX l) = Ok (Fin v) ->
  signal_variance (map oX (map (option_map (fun x => c * x)) l)) = Ok (Fin (c ^ 2 * v)).
Proof. exact signal_scale. Qed.
Print Assumptions C28_scale.
(* order and missing entries do not matter *)
Theorem C28_order : forall l l', Permutation (somes l) (somes l') ->
  signal_variance (map oX l) = signal_variance (map oX l').
Proof. exact signal_perm. Qed.
Print Assumptions C28_order.
Example C28_witness : signal_variance (map oX [Some 34; None; Some 36]) = Ok (Fin 1).
Proof. exact signal_example. Qed.

(* ---- C29 ---- *)
Theorem C29_noise_variance : forall l,
  (all_same l -> noise_variance (map fstation l) = Ok (Fin 0)) /\
  (~ all_same l -> exists nn : nat -> nat,
     (forall i, (i < length l)%nat -> nearest l i (nn i)) /\
     let ds := somes (map (fun i => sqdiff (st_sal (nth i l dstation)) (st_sal (nth (nn i) l dstation)))
                          (seq 0 (length l))) in
     noise_variance (map fstation l) = Ok (match ds with [] => NaN | _ => Fin (mean_of ds / 2) end)).
Proof. exact noise_value. Qed.
Print Assumptions C29_noise_variance.
Theorem C29_nearest_unique : forall l i j k, nearest l i j -> nearest l i k -> j = k.
Proof. exact nearest_unique. Qed.
Print Assumptions C29_nearest_unique.
Theorem C29_never_raises : forall l, exists v, noise_variance (map fstation l) = Ok v.
Proof. exact noise_never_raises. Qed.
Print Assumptions C29_never_raises.
Theorem C29_bounds : forall l v B, noise_variance (map fstation l) = Ok (Fin v) ->
  (forall a b x y, In a l -> In b l -> st_sal a = Some x -> st_sal b = Some y -> (x - y) ^ 2 <= B) -> 0 <= B ->
  0 <= v <= B / 2.
Proof. exact noise_bounds. Qed.
Print Assumptions C29_bounds.
Theorem C29_shift : forall l c,
  noise_variance (map fstation (map (shift_sal c) l)) = noise_variance (map fstation l).
Proof. exact noise_shift. Qed.
Print Assumptions C29_shift.
Example C29_witness :
  noise_variance (map fstation [mkStation (Some 34) 0 0; mkStation (Some 36) 0 1; mkStation (Some 35) 0 3])
  = Ok (Fin (3 / 2)).
Proof. exact noise_example. Qed.

(* ---- C30 ---- *)
Theorem C30_covariance_formula : forall s l1 l2, scales_nonzero s -> has_depth s l1 -> has_depth s l2 ->
  some_points s l1 -> some_points s l2 ->
  exists K, covariance s l1 l2 = Ok K /\
    forall i j, (i < length l1)%nat -> (j < length l2)%nat ->
      K i j = Fin (exp (- separation2 s (nth i l1 dpointR) (nth j l2 dpointR))).
Proof. exact covariance_entry. Qed.
Print Assumptions C30_covariance_formula.
Theorem C30_correlation : forall s l1 l2, scales_nonzero s -> has_depth s l1 -> has_depth s l2 ->
  some_points s l1 -> some_points s l2 ->
  exists K K', covariance s l1 l2 = Ok K /\ covariance s l2 l1 = Ok K' /\
    forall i j, (i < length l1)%nat -> (j < length l2)%nat ->
      exists v, K i j = Fin v /\ 0 < v <= 1 /\ K' j i = Fin v
        /\ (nth i l1 dpointR = nth j l2 dpointR -> v = 1).
Proof. exact covariance_correlation. Qed.
Print Assumptions C30_correlation.

(* ---- C31 ---- *)
Theorem C31_covariance_psd : forall s l, scales_nonzero s -> has_depth s l -> some_points s l ->
  exists K, covariance s l l = Ok K /\
    exists k, (forall i j, (i < length l)%nat -> (j < length l)%nat -> K i j = Fin (k i j)) /\
      forall w : nat -> R, 0 <= bsum (length l) (fun i => bsum (length l) (fun j => w i * w j * k i j)).
Proof. exact covariance_psd. Qed.
Print Assumptions C31_covariance_psd.
Example C30_C31_witness : let s := mkScales 4 8 10 (1/10) true in
  let l := [mkPoint 50 10 2000 3000; mkPoint (-50) 12 2001 4000] in
  scales_nonzero s /\ has_depth s l /\ some_points s l.
Proof. exact covariance_example. Qed.

(* ---- C33 ---- *)
Theorem C33_build_cov_blocks : forall nr nc t l h,
  length l = nc -> table_needed nr nc t -> hscales_ok h l ->
  exists m, build_cov nr nc (fun i p => oX (t i p)) (map fcoord l) (hconfig h) = Ok m /\
    forall a b i j, (a < nc)%nat -> (b < nc)%nat -> (i < nr)%nat -> (j < nr)%nat ->
      m (a * nr + i)%nat (b * nr + j)%nat
      = Fin (horizontal h (nth a l dcoord) (nth b l dcoord) * vertical (fun i => t i a) i j).
Proof. exact build_cov_blocks. Qed.
Print Assumptions C33_build_cov_blocks.
Theorem C33_build_cov_unit : forall nr nc t l h,
  length l = nc -> table_needed nr nc t -> hscales_ok h l ->
  exists m, build_cov nr nc (fun i p => oX (t i p)) (map fcoord l) (hconfig h) = Ok m /\
    (forall p q, (p < nc * nr)%nat -> (q < nc * nr)%nat -> exists v, m p q = Fin v /\ 0 < v <= 1) /\
    (forall p, (p < nc * nr)%nat -> m p p = Fin 1).
Proof. exact build_cov_unit. Qed.
Print Assumptions C33_build_cov_unit.
Example C33_witness : let l := [mkCoord 10 20 3000; mkCoord 11 21 3500] in
  let h := mkHScales 4 8 (1/10) true in
  let t := fun i p => if Nat.eqb i 0 then Some (20 + INR p) else None in
  length l = 2%nat /\ table_needed 2 2 t /\ hscales_ok h l.
Proof. exact build_cov_example. Qed.

(* ---- C34 ---- *)
Theorem C34_symmetric_isothermal : forall nr nc t l h,
  length l = nc -> table_needed nr nc t -> hscales_ok h l ->
  (forall p, (p < nc)%nat -> isothermal nr (fun i => t i p)) ->
  (h_pv h = true -> forall c, In c l -> planetary c <> 0) ->
  exists m, build_cov nr nc (fun i p => oX (t i p)) (map fcoord l) (hconfig h) = Ok m /\
    forall p q, (p < nc * nr)%nat -> (q < nc * nr)%nat -> m p q = m q p.
Proof. exact build_cov_symmetric. Qed.
Print Assumptions C34_symmetric_isothermal.
Example C34_witness : length iso_coords = 2%nat /\ table_needed 2 2 iso_temps /\ hscales_ok iso_scales iso_coords /\
  (forall p, (p < 2)%nat -> isothermal 2 (fun i => iso_temps i p)) /\
  (h_pv iso_scales = true -> forall c, In c iso_coords -> planetary c <> 0).
Proof. exact iso_case. Qed.
(* one profile with temperatures 20 and 10 *)
Theorem C34_one_profile_refuted : exists t l h,
  length l = 1%nat /\ table_needed 2 1 t /\ hscales_ok h l /\
  exists m, build_cov 2 1 (fun i p => oX (t i p)) (map fcoord l) (hconfig h) = Ok m /\ m 0%nat 1%nat <> m 1%nat 0%nat.
Proof. exact build_cov_asym_profile. Qed.
Print Assumptions C34_one_profile_refuted.
(* two one-level profiles, the first coordinate of one being 0, potential vorticity on *)
Theorem C34_zero_vorticity_refuted : exists t l h,
  length l = 2%nat /\ table_needed 1 2 t /\ hscales_ok h l /\
  exists m, build_cov 1 2 (fun i p => oX (t i p)) (map fcoord l) (hconfig h) = Ok m /\ m 0%nat 1%nat <> m 1%nat 0%nat.
Proof. exact build_cov_asym_pv. Qed.
Print Assumptions C34_zero_vorticity_refuted.
(* two profiles with different temperatures on two levels, vorticity off *)
Theorem C34_two_profiles_refuted : exists t l h,
  length l = 2%nat /\ table_needed 2 2 t /\ hscales_ok h l /\ h_pv h = false /\
  exists m, build_cov 2 2 (fun i p => oX (t i p)) (map fcoord l) (hconfig h) = Ok m /\ m 0%nat 3%nat <> m 3%nat 0%nat.
Proof. exact build_cov_asym_profiles. Qed.
Print Assumptions C34_two_profiles_refuted.

(* ---- C35 ---- *)
Theorem C35_build_cov_range : forall nr nc (ptmp : nat -> nat -> XR) (coords : list (coord XR)) cfg,
  length coords = nc ->
  ((2 <= nr)%nat /\ (exists i p, (i < nr)%nat /\ (p < nc)%nat /\ ~ tabulated (ptmp i p))
     -> build_cov nr nc ptmp coords cfg = Raise ValueError) /\
  ((nr <= 1)%nat \/ (forall i p, (i < nr)%nat -> (p < nc)%nat -> tabulated (ptmp i p))
     -> exists m, build_cov nr nc ptmp coords cfg = Ok m).
Proof. exact build_cov_range. Qed.
Print Assumptions C35_build_cov_range.
Example C35_witness : ~ tabulated (Fin 31) /\ tabulated (Fin 30) /\ tabulated NaN.
Proof. exact tabulated_example. Qed.
