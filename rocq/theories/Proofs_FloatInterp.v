(* interp_climatology in double precision: one pair of samples *)
From Coq Require Import ZArith List Bool Reals Lra Lia.
From Flocq Require Import Core.Core IEEE754.BinarySingleNaN Relative.
From Verif Require Import Num Np NumFacts Wrangling Spec_Float Spec_Interp Spec_FloatInterp
  Proofs_Float1 Proofs_Float2 Proofs_Float3 Proofs_Float5 Float.
Import ListNotations.
Local Open Scope R_scope.

(* a temperature *)
Definition tame (x : f64) : Prop :=
  finite x /\ Rabs (val x) <= 64 /\ (val x = 0 \/ bpow radix2 (-400) <= Rabs (val x)).

Lemma small_big r : Rabs r <= 1000000 -> Rabs r <= big.
Proof. intros. pose proof big_1000. lra. Qed.

(* tame numbers are multiples of 2^-452 *)
Lemma tame_multiple x : tame x -> exists m : Z, val x = IZR m * bpow radix2 (-452).
Proof.
  intros (F & _ & [Z|N]); [exists 0%Z; rewrite Z; ring|].
  assert (G : generic_format radix2 fexp64 (val x)) by apply generic_format_B2R.
  unfold generic_format, F2R in G. cbn [Fnum Fexp] in G.
  set (m := Ztrunc (scaled_mantissa radix2 fexp64 (val x))) in *. set (e := cexp radix2 fexp64 (val x)) in *.
  assert (E : (-452 <= e)%Z).
  { unfold e, cexp. assert (-399 <= mag radix2 (val x))%Z.
    { change (-399)%Z with (-400 + 1)%Z. apply mag_ge_bpow. replace (-400 + 1 - 1)%Z with (-400)%Z by lia. exact N. }
    unfold SpecFloat.fexp, SpecFloat.emin. lia. }
  exists (m * 2 ^ (e + 452))%Z. rewrite G at 1. rewrite mult_IZR, (IZR_Zpower radix2) by lia.
  replace e with ((e + 452) + -452)%Z at 1 by lia. rewrite bpow_plus. ring.
Qed.

(* so their difference is zero or not small *)
Lemma tame_diff x y : tame x -> tame y -> val x <> val y -> bpow radix2 (-452) <= Rabs (val x - val y).
Proof.
  intros X Y N. destruct (tame_multiple x X) as (m & M). destruct (tame_multiple y Y) as (n & K).
  rewrite M, K in N |- *. replace (IZR m * bpow radix2 (-452) - IZR n * bpow radix2 (-452)) with (IZR (m - n) * bpow radix2 (-452)) by (rewrite minus_IZR; ring).
  rewrite Rabs_mult, (Rabs_pos_eq (bpow _ _)) by apply bpow_ge_0. rewrite <- abs_IZR.
  assert (1 <= Z.abs (m - n))%Z by (assert (m <> n) by (intros ->; auto); lia).
  apply IZR_le in H. pose proof (bpow_gt_0 radix2 (-452)). nra.
Qed.

Lemma tame_sub x y : tame x -> tame y ->
  finite (nsub x y) /\ val (nsub x y) = rnd (val x - val y) /\ Rabs (val (nsub x y)) <= 128
  /\ (val x = val y -> val (nsub x y) = 0)
  /\ (val x < val y -> val (nsub x y) <= - bpow radix2 (-452))
  /\ (val y < val x -> bpow radix2 (-452) <= val (nsub x y)).
Proof.
  intros X Y. pose proof (tame_diff x y X Y) as D. destruct X as (Fx & X & _), Y as (Fy & Y & _).
  assert (B : Rabs (val x - val y) <= 128) by (revert X Y; unfold Rabs; repeat destruct Rcase_abs; lra).
  destruct (sub_fin x y Fx Fy) as (F & E); [apply small_big; lra|].
  split; [exact F|]. split; [exact E|].
  split; [rewrite E; change 128 with (bpow radix2 7) in B |- *; apply rnd_bound; [lia|exact B]|].
  split; [intros Q; rewrite E, Q; replace (val y - val y) with 0 by ring; apply rnd_0|].
  split; intros Q; rewrite E.
  - rewrite <- (rnd_pow (-452)), <- rnd_opp by lia. apply rnd_le.
    specialize (D ltac:(lra)). rewrite Rabs_left in D by lra. lra.
  - rewrite <- (rnd_pow (-452)) by lia. apply rnd_le.
    specialize (D ltac:(lra)). rewrite Rabs_right in D by lra. lra.
Qed.

(* the computed product has the sign of the product *)
Lemma change_iff t0 t1 v : tame t0 -> tame t1 -> tame v ->
  sign_change (nsub t0 v, nsub t1 v) = true <->
  (val t0 <= val v <= val t1 \/ val t1 <= val v <= val t0).
Proof.
  intros T0 T1 V. unfold sign_change. cbn [fst snd].
  destruct (tame_sub t0 v T0 V) as (F0 & _ & B0 & Z0 & L0 & G0). destruct (tame_sub t1 v T1 V) as (F1 & _ & B1 & Z1 & L1 & G1).
  set (d0 := nsub t0 v) in *. set (d1 := nsub t1 v) in *.
  assert (B : Rabs (val d1 * val d0) <= 16384).
  { rewrite Rabs_mult. pose proof (Rabs_pos (val d0)). pose proof (Rabs_pos (val d1)). nra. }
  destruct (mul_fin d1 d0 F1 F0) as (F & E); [apply small_big; lra|].
  rewrite le_finite; [|exact F|reflexivity]. change (val (nofZ 0)) with 0. rewrite E. rewrite Rleb_true.
  assert (P : bpow radix2 (-452) * bpow radix2 (-452) = bpow radix2 (-904)) by (rewrite <- bpow_plus; reflexivity).
  pose proof (bpow_gt_0 radix2 (-452)) as P0. pose proof (bpow_gt_0 radix2 (-904)) as P1.
  assert (NEG : val d1 * val d0 <= 0 -> rnd (val d1 * val d0) <= 0) by (intros; rewrite <- rnd_0; now apply rnd_le).
  assert (POS : bpow radix2 (-904) <= val d1 * val d0 -> ~ rnd (val d1 * val d0) <= 0).
  { intros H K. apply rnd_le in H. rewrite rnd_pow in H by lia. lra. }
  destruct (Rtotal_order (val t0) (val v)) as [A|[A|A]], (Rtotal_order (val t1) (val v)) as [C|[C|C]];
    try (rewrite (Z0 A) in * ); try (rewrite (Z1 C) in * ); try specialize (L0 A); try specialize (G0 A); try specialize (L1 C); try specialize (G1 C);
    (split; intros H; [try (left; lra); try (right; lra); exfalso; revert H; apply POS; nra|]); try (apply NEG; nra); exfalso; lra.
Qed.

(* an isothermal pair gives NaN *)
Lemma isothermal_nan t0 t1 v (a b : f64) : tame t0 -> tame t1 -> tame v -> val t0 = val t1 -> val v = val t0 ->
  interpolate (interpolation_weight v (t0, t1)) (a, b) = nnan.
Proof.
  intros T0 T1 V Q R. unfold interpolate, interpolation_weight. cbn [fst snd].
  destruct (tame_sub v t0 V T0) as (F0 & _ & _ & Z0 & _). destruct (tame_sub t1 t0 T1 T0) as (F1 & _ & _ & Z1 & _).
  specialize (Z0 R). specialize (Z1 (eq_sym Q)).
  destruct (nsub v t0) as [s0| | |s0 m0 e0 H0]; try discriminate F0; [|exfalso; revert Z0; apply (F2R_neq_0 radix2); destruct s0; discriminate].
  destruct (nsub t1 t0) as [s1| | |s1 m1 e1 H1]; try discriminate F1; [|exfalso; revert Z1; apply (F2R_neq_0 radix2); destruct s1; discriminate].
  change (ndiv (B754_zero s0 : f64) (B754_zero s1)) with (B754_nan : f64).
  replace (nmul (B754_nan : f64) (nsub b a)) with (B754_nan : f64) by (destruct (nsub b a); reflexivity).
  destruct a; reflexivity.
Qed.

(* relative error of a subtraction *)
Lemma tame_rel x y : tame x -> tame y -> exists d, Rabs d <= bpow radix2 (-53) /\ val (nsub x y) = (val x - val y) * (1 + d).
Proof.
  intros X Y. destruct (tame_sub x y X Y) as (_ & E & _). rewrite E.
  destruct (Req_dec (val x) (val y)) as [Q|Q].
  - exists 0. rewrite Rabs_R0. split; [apply bpow_ge_0|]. rewrite Q. replace (val y - val y) with 0 by ring. rewrite rnd_0. ring.
  - pose proof (tame_diff x y X Y Q) as D.
    destruct (relative_error_N_FLT_ex radix2 (-1074) 53 eq_refl (fun z => negb (Z.even z)) (val x - val y)) as (d & B & H).
    { apply Rle_trans with (2 := D). apply bpow_le. lia. }
    exists d. split; [|exact H]. change (bpow radix2 (- (53) + 1)) with (/ 4503599627370496) in B.
    change (bpow radix2 (-53)) with (/ 9007199254740992). lra.
Qed.

Definition enclosed (t0 t1 v : f64) : Prop := val t0 <= val v <= val t1 \/ val t1 <= val v <= val t0.
Definition exact_weight (t0 t1 v : f64) : R := (val v - val t0) / (val t1 - val t0).

Lemma exact_weight_range t0 t1 v : enclosed t0 t1 v -> val t0 <> val t1 -> 0 <= exact_weight t0 t1 v <= 1.
Proof.
  intros H N. unfold exact_weight. destruct H as [H|H].
  - split; [apply Rmult_le_pos; [lra|left; apply Rinv_0_lt_compat; lra]|]. apply Rmult_le_reg_r with (val t1 - val t0); [lra|]. field_simplify; lra.
  - replace ((val v - val t0) / (val t1 - val t0)) with ((val t0 - val v) / (val t0 - val t1)) by (field; lra).
    split; [apply Rmult_le_pos; [lra|left; apply Rinv_0_lt_compat; lra]|]. apply Rmult_le_reg_r with (val t0 - val t1); [lra|]. field_simplify; lra.
Qed.

Lemma ratio_range n d : (0 <= n <= d /\ 0 < d) \/ (d <= n <= 0 /\ d < 0) -> 0 <= n / d <= 1.
Proof.
  intros [[H P]|[H P]].
  - split; [apply Rmult_le_pos; [lra|left; now apply Rinv_0_lt_compat]|]. apply Rmult_le_reg_r with d; [lra|]. field_simplify; lra.
  - replace (n / d) with ((- n) / (- d)) by (field; lra).
    split; [apply Rmult_le_pos; [lra|left; apply Rinv_0_lt_compat; lra]|]. apply Rmult_le_reg_r with (- d); [lra|]. field_simplify; lra.
Qed.

Lemma weight_spec t0 t1 v : tame t0 -> tame t1 -> tame v -> enclosed t0 t1 v -> val t0 <> val t1 ->
  let w := interpolation_weight v (t0, t1) in
  finite w /\ 0 <= val w <= 1 /\ Rabs (val w - exact_weight t0 t1 v) <= bpow radix2 (-51).
Proof.
  intros T0 T1 V H N. cbv zeta. pose proof (exact_weight_range t0 t1 v H N) as WR.
  unfold interpolation_weight. cbn [fst snd].
  destruct (tame_sub v t0 V T0) as (F0 & E0 & B0 & Z0 & L0 & G0). destruct (tame_sub t1 t0 T1 T0) as (F1 & E1 & B1 & Z1 & L1 & G1).
  destruct (tame_rel v t0 V T0) as (d0 & D0 & R0). destruct (tame_rel t1 t0 T1 T0) as (d1 & D1 & R1).
  pose proof (bpow_gt_0 radix2 (-452)) as P0.
  set (n := nsub v t0) in *. set (d := nsub t1 t0) in *.
  assert (DN : val d <> 0).
  { destruct (Rtotal_order (val t1) (val t0)) as [Q|[Q|Q]]; [specialize (L1 Q); lra|congruence|specialize (G1 Q); lra]. }
  assert (Q : 0 <= val n / val d <= 1).
  { apply ratio_range. rewrite E0, E1 in *. destruct H as [H|H].
    - left. assert (val t0 < val t1) as Q by lra. specialize (G1 Q). split; [|lra]. split; [rewrite <- rnd_0|]; apply rnd_le; lra.
    - right. assert (val t1 < val t0) as Q by lra. specialize (L1 Q). split; [|lra]. split; [|rewrite <- rnd_0]; apply rnd_le; lra. }
  destruct (div_fin n d F0 DN) as (F & E).
  { apply small_big. rewrite Rabs_pos_eq by lra. lra. }
  split; [exact F|]. rewrite E.
  split. { split; [rewrite <- rnd_0; apply rnd_le; lra|]. apply (rnd_le_Z _ 1); [lia|lra]. }
  assert (A : Rabs (rnd (val n / val d) - val n / val d) <= bpow radix2 (-54)).
  { change (-54)%Z with (0 - 54)%Z. apply rnd_err; [lia|]. cbn [bpow]. rewrite Rabs_pos_eq; lra. }
  assert (C : Rabs (val n / val d - exact_weight t0 t1 v) <= bpow radix2 (-52) * (1 + / 2)).
  { rewrite R0, R1. unfold exact_weight in *. set (x := val v - val t0) in *. set (y := val t1 - val t0) in *.
    assert (y <> 0) by (unfold y; lra).
    change (bpow radix2 (-53)) with (/ 9007199254740992) in *. change (bpow radix2 (-52)) with (/ 4503599627370496).
    assert (PD : 1 + d1 <> 0) by (revert D1; unfold Rabs; destruct Rcase_abs; lra).
    replace (x * (1 + d0) / (y * (1 + d1)) - x / y) with ((x / y) * ((d0 - d1) / (1 + d1))) by (field; auto).
    rewrite Rabs_mult, (Rabs_pos_eq (x / y)) by lra.
    assert (Rabs ((d0 - d1) / (1 + d1)) <= / 4503599627370496 * (1 + / 2)).
    { unfold Rdiv. rewrite Rabs_mult, Rabs_inv. apply Rmult_le_reg_r with (Rabs (1 + d1)).
      - apply Rabs_pos_lt. exact PD.
      - rewrite Rmult_assoc, Rinv_l, Rmult_1_r by now apply Rabs_no_R0.
        revert D0 D1. unfold Rabs. repeat destruct Rcase_abs; intros; lra. }
    pose proof (Rabs_pos ((d0 - d1) / (1 + d1))). nra. }
  change (bpow radix2 (-51)) with (/ 2251799813685248). change (bpow radix2 (-54)) with (/ 18014398509481984) in A. change (bpow radix2 (-52)) with (/ 4503599627370496) in C.
  revert A C. unfold Rabs. repeat destruct Rcase_abs; intros; lra.
Qed.
