(* Properties C45-C53, C81-C82: pyowc/data/wrangling.py *)
From Coq Require Import ZArith List Bool Reals Lra Lia Permutation.
From Verif Require Import Num Np Stats Wrangling LinR Spec_Stats Spec_FitCond Spec_Map Spec_Interp
  Proofs_Map Proofs_Map2 Proofs_Interp Proofs_Interp2 Proofs_Witness2.
Import ListNotations.
Local Open Scope R_scope.

(* ---- C45 ---- *)
Theorem C45_constant_field : forall inv, inv_ok inv -> forall s sv nv g data c,
  mappable s sv nv g data -> regular s sv nv data ->
  exists e es, mapped inv s sv nv (repeat c (length data)) g data
    = Ok (Fin c, Fin e, map Fin (repeat c (length data)), map Fin es).
Proof. exact map_constant. Qed.
Print Assumptions C45_constant_field.
Example C45_witness : mappable demo_scales 1 (1 / 10) demo_float demo_data /\ regular demo_scales 1 (1 / 10) demo_data.
Proof. split; [apply demo_mappable; lra|exact demo_regular]. Qed.

(* ---- C46 ---- *)
Theorem C46_affine : forall inv, inv_ok inv -> forall s sv nv g data a b c sal sal',
  mappable s sv nv g data -> regular s sv nv data -> length sal = length data -> length sal' = length data ->
  exists v v' vs vs' e es,
    mapped inv s sv nv sal g data = Ok (Fin v, Fin e, map Fin vs, map Fin es) /\
    mapped inv s sv nv sal' g data = Ok (Fin v', Fin e, map Fin vs', map Fin es) /\
    mapped inv s sv nv (combo a b c sal sal') g data
      = Ok (Fin (a * v + b * v' + c), Fin e, map Fin (combo a b c vs vs'), map Fin es).
Proof. exact map_affine. Qed.
Print Assumptions C46_affine.
(* the hypotheses of C46 and C81 are those of C45_witness *)

(* ---- C47 ---- *)
Theorem C47_solvable : forall inv, inv_ok inv -> forall s sv nv g data sal,
  mappable s sv nv g data -> 0 < nv -> length sal = length data ->
  exists v e vs es, mapped inv s sv nv sal g data = Ok (Fin v, Fin e, map Fin vs, map Fin es) /\
    length vs = length data /\ length es = length data /\ 0 <= e /\ Forall (Rle 0) es.
Proof. exact map_solvable. Qed.
Print Assumptions C47_solvable.
Theorem C47_regular : forall s sv nv data, scales_nonzero s -> has_depth s data -> 0 <= sv -> 0 < nv ->
  regular s sv nv data.
Proof. exact noise_regular. Qed.
Print Assumptions C47_regular.
Example C47_witness : mappable demo_scales 1 (1 / 10) demo_float demo_data /\ 0 < 1 / 10.
Proof. split; [apply demo_mappable; lra|lra]. Qed.

(* ---- C48 ---- *)
Theorem C48_exact_without_noise : forall inv, inv_ok inv -> forall s sv g data sal,
  mappable s sv 0 g data -> regular s sv 0 data -> length sal = length data ->
  exists v e, mapped inv s sv 0 sal g data = Ok (Fin v, Fin e, map Fin sal, map Fin (repeat 0 (length data))).
Proof. exact map_exact. Qed.
Print Assumptions C48_exact_without_noise.
Example C48_witness : mappable demo_scales 1 0 demo_float demo_data /\ regular demo_scales 1 0 demo_data.
Proof. split; [apply demo_mappable; lra|exact demo_exact]. Qed.

(* ---- C49 ---- *)
Theorem C49_cast_order : forall inv, inv_ok inv -> forall s sv nv g casts casts',
  mappable s sv nv g (map fst casts) -> regular s sv nv (map fst casts) -> Permutation casts casts' ->
  exists v e vs es vs' es',
    mapped_casts inv s sv nv g casts = Ok (Fin v, Fin e, map Fin vs, map Fin es) /\
    mapped_casts inv s sv nv g casts' = Ok (Fin v, Fin e, map Fin vs', map Fin es') /\
    length vs = length casts /\ length es = length casts /\
    Permutation (combine casts (combine vs es)) (combine casts' (combine vs' es')).
Proof. exact map_permutation. Qed.
Print Assumptions C49_cast_order.
Example C49_witness : let casts := combine demo_data [35; 36] in
  mappable demo_scales 1 (1 / 10) demo_float (map fst casts) /\ regular demo_scales 1 (1 / 10) (map fst casts) /\
  Permutation casts (rev casts) /\ casts <> rev casts.
Proof.
  split; [apply (demo_mappable (1 / 10)); lra|]. split; [exact demo_regular|]. split; [apply perm_swap|].
  cbn. intros E. injection E as E. lra.
Qed.

(* ---- C81 ---- *)
Theorem C81_best_unbiased : forall inv, inv_ok inv -> forall s sv nv g data,
  mappable s sv nv g data -> regular s sv nv data ->
  exists w, best_weights s sv nv data g w /\ forall sal, length sal = length data ->
    exists e vs es, mapped inv s sv nv sal g data = Ok (Fin (estimate w sal), Fin e, map Fin vs, map Fin es) /\
      0 <= e /\ e ^ 2 = mean_square_error s sv nv data g w.
Proof. exact map_optimal. Qed.
Print Assumptions C81_best_unbiased.
Theorem C81_best_unbiased_casts : forall inv, inv_ok inv -> forall s sv nv g data,
  mappable s sv nv g data -> regular s sv nv data ->
  forall i, (i < length data)%nat -> exists w, best_weights s sv nv data (cast data i) w /\
    forall sal, length sal = length data ->
    exists v e vs es, mapped inv s sv nv sal g data = Ok (Fin v, Fin e, map Fin vs, map Fin es) /\
      nth i vs 0 = estimate w sal /\ 0 <= nth i es 0 /\ nth i es 0 ^ 2 = mean_square_error s sv nv data (cast data i) w.
Proof. exact map_optimal_casts. Qed.
Print Assumptions C81_best_unbiased_casts.

(* ---- C82 ---- *)
Theorem C82_more_casts : forall inv, inv_ok inv -> forall s sv nv g data extra sal sal',
  mappable s sv nv g (data ++ extra) -> data <> [] ->
  regular s sv nv data -> regular s sv nv (data ++ extra) -> length sal = length data -> length sal' = length (data ++ extra) ->
  exists v e vs es v' e' vs' es',
    mapped inv s sv nv sal g data = Ok (Fin v, Fin e, map Fin vs, map Fin es) /\
    mapped inv s sv nv sal' g (data ++ extra) = Ok (Fin v', Fin e', map Fin vs', map Fin es') /\
    e' <= e.
Proof. exact map_more_casts. Qed.
Print Assumptions C82_more_casts.
Example C82_witness : let data := firstn 1 demo_data in let extra := skipn 1 demo_data in
  mappable demo_scales 1 (1 / 10) demo_float (data ++ extra) /\ data <> [] /\ extra <> [] /\
  regular demo_scales 1 (1 / 10) data /\ regular demo_scales 1 (1 / 10) (data ++ extra).
Proof.
  split; [apply (demo_mappable (1 / 10)); lra|]. split; [discriminate|]. split; [discriminate|]. exact (conj demo_first demo_regular).
Qed.

(* ---- C50 ---- *)
Theorem C50_interpolation : forall gs gt gp, same_shape gs gt -> same_shape gt gp ->
  forall float r, interp_climatology gs gt gp float = Ok r -> Forall2 (row_gives gs gt gp) float r.
Proof. exact interp_rows. Qed.
Print Assumptions C50_interpolation.
Theorem C50_range : forall f l v k, encloses l v k -> sloped l k ->
  Rmin (at_ f l k) (at_ f l (S k)) <= between f l v k <= Rmax (at_ f l k) (at_ f l (S k)).
Proof. exact between_range. Qed.
Print Assumptions C50_range.
Example C50_witness :
  interp_climatology (demo 35 36) (demo 10 5) (demo 100 200) [(Fin 35, Fin 8, Fin 150)] = Ok [[(Fin (177/5), Fin 140)]].
Proof. exact demo_sloped. Qed.

(* ---- C51 ---- *)
Theorem C51_missing : forall gs gt gp float r i j, same_shape gs gt -> same_shape gt gp ->
  interp_climatology gs gt gp float = Ok r -> (i < length float)%nat -> (j < a_cols gs)%nat ->
  let nothing := match level_of (nth i float (NaN, NaN, NaN)) with
                 | None => True
                 | Some (_, t, _) => forall k, ~ encloses (samples gs gt gp j) t k
                 end in
  (fst (nth j (nth i r []) (NaN, NaN)) = NaN <-> nothing) /\ (snd (nth j (nth i r []) (NaN, NaN)) = NaN <-> nothing).
Proof. exact interp_missing. Qed.
Print Assumptions C51_missing.
Theorem C51_mismatch : forall gs gt gp float, ~ (same_shape gs gt /\ same_shape gt gp) ->
  interp_climatology gs gt gp float = Ok (map (fun _ => repeat (NaN, NaN) (a_cols gs)) float).
Proof. exact interp_mismatch. Qed.
Print Assumptions C51_mismatch.
Theorem C51_no_climatology : forall gs gt gp float, same_shape gs gt -> same_shape gt gp -> (0 < a_cols gs)%nat ->
  (forall j, (j < a_cols gs)%nat -> samples gs gt gp j = []) ->
  interp_climatology gs gt gp float = Ok (map (fun _ => repeat (NaN, NaN) (a_cols gs)) float).
Proof. exact interp_no_climatology. Qed.
Print Assumptions C51_no_climatology.
Example C51_witness : same_shape missing (demo 10 5) /\ same_shape (demo 10 5) (demo 100 200) /\
  (forall j, (j < a_cols missing)%nat -> samples missing (demo 10 5) (demo 100 200) j = []) /\
  ~ (same_shape (demo 35 36) (mkArray2 XR 3%nat 1%nat (fun _ _ => Fin 10)) /\
     same_shape (mkArray2 XR 3%nat 1%nat (fun _ _ => Fin 10)) (demo 100 200)) /\
  (* a float level of 8 degrees has a result, one of 12 degrees none *)
  encloses (samples (demo 35 36) (demo 10 5) (demo 100 200) 0) 8 0 /\
  forall k, ~ encloses (samples (demo 35 36) (demo 10 5) (demo 100 200) 0) 12 k.
Proof.
  split; [apply missing_shape|]. split; [apply demo_shape|]. split; [exact missing_samples|]. split; [exact shapes_differ|]. split.
  - split; [cbn; lia|]. unfold at_, p_theta. cbn. lra.
  - intros k [Hk H]. cbn in Hk. assert (k = 0)%nat as -> by lia. unfold at_, p_theta in H. cbn in H. lra.
Qed.

(* ---- C52 ---- *)
Theorem C52_raises : forall gs gt gp, same_shape gs gt -> same_shape gt gp -> forall float e,
  interp_climatology gs gt gp float = Raise e <->
  e = ValueError /\ (a_cols gs = 0%nat \/ (some_sample gs gt gp /\ exists q, In q float /\ troublesome gs gt gp q)).
Proof. exact interp_raises. Qed.
Print Assumptions C52_raises.
(* a station with two samples of 5 degrees, a float level of 5 degrees *)
Theorem C52_always_returns_refuted : exists gs gt gp float, same_shape gs gt /\ same_shape gt gp /\
  some_sample gs gt gp /\ interp_climatology gs gt gp float = Raise ValueError.
Proof.
  exact (ex_intro _ _ (ex_intro _ _ (ex_intro _ _ (ex_intro _ _ (conj (demo_shape _ _ _ _) (conj (demo_shape _ _ _ _)
    (conj (ex_intro _ 0%nat (conj Nat.lt_0_1 demo_nonempty)) demo_isothermal))))))).
Qed.
Print Assumptions C52_always_returns_refuted.

(* ---- C53 ---- *)
Theorem C53_independent : forall gs gt gp gs' gt' gp' float r r' j j',
  same_shape gs gt -> same_shape gt gp -> same_shape gs' gt' -> same_shape gt' gp' ->
  (j < a_cols gs)%nat -> (j' < a_cols gs')%nat -> samples gs gt gp j = samples gs' gt' gp' j' ->
  interp_climatology gs gt gp float = Ok r -> interp_climatology gs' gt' gp' float = Ok r' ->
  forall i, (i < length float)%nat -> nth j (nth i r []) (NaN, NaN) = nth j' (nth i r' []) (NaN, NaN).
Proof. exact interp_independent. Qed.
Print Assumptions C53_independent.
Example C53_witness :
  samples (beside 34 34 35 36) (beside 20 19 10 5) (beside 50 60 100 200) 1 = samples (demo 35 36) (demo 10 5) (demo 100 200) 0 /\
  (exists r, interp_climatology (beside 34 34 35 36) (beside 20 19 10 5) (beside 50 60 100 200) [(Fin 35, Fin 8, Fin 150)] = Ok r) /\
  exists r, interp_climatology (demo 35 36) (demo 10 5) (demo 100 200) [(Fin 35, Fin 8, Fin 150)] = Ok r.
Proof. exact (conj beside_samples (conj beside_ok (ex_intro _ _ demo_sloped))). Qed.
