(* Worked cases for the properties of pyowc/core/stats.py *)
From Coq Require Import ZArith List Bool Reals Lra Lia Permutation.
From Verif Require Import Num Np NumFacts Finders Stats Spec_Utilities Spec_Finders Spec_Stats LinR
  Proofs_Finders Proofs_Stats1 Proofs_Stats2 Proofs_Stats3.
Import ListNotations.
Local Open Scope R_scope.

Lemma signal_example : signal_variance (map oX [Some 34; None; Some 36]) = Ok (Fin 1).
Proof.
  rewrite (proj2 (signal_variance_value _)) by (simpl; congruence). do 2 f_equal.
  unfold pop_var, mean_of. simpl. field.
Qed.

Lemma noise_example :
  noise_variance (map fstation [mkStation (Some 34) 0 0; mkStation (Some 36) 0 1; mkStation (Some 35) 0 3])
  = Ok (Fin (3 / 2)).
Proof.
  set (l := [mkStation (Some 34) 0 0; mkStation (Some 36) 0 1; mkStation (Some 35) 0 3]).
  assert (N : ~ all_same l).
  { intros S. destruct (S (mkStation (Some 34) 0 0) (mkStation (Some 36) 0 1)); simpl in *; auto. lra. }
  assert (P : forall a b, st_long a <> st_long b -> ~ same_place a b) by (intros a b H [_ E]; auto).
  destruct (proj2 (noise_value l) N) as (nn & Hn & E). cbv zeta in E. rewrite E. clear E.
  assert (N0 : nn 0%nat = 1%nat).
  { apply (nearest_unique l 0); [apply Hn; simpl; lia|]. unfold nearest, dist2. simpl.
    split; [lia|]. split; [apply P; simpl; lra|]. split.
    - intros k Hk Hd. destruct k as [|[|[|k]]]; simpl in *; try lia; try lra. exfalso; apply Hd; split; reflexivity.
    - intros k Hk Hd. destruct k; [exfalso; apply Hd; split; reflexivity|lia]. }
  assert (N1 : nn 1%nat = 0%nat).
  { apply (nearest_unique l 1); [apply Hn; simpl; lia|]. unfold nearest, dist2. simpl.
    split; [lia|]. split; [apply P; simpl; lra|]. split.
    - intros k Hk Hd. destruct k as [|[|[|k]]]; simpl in *; try lia; try lra. exfalso; apply Hd; split; reflexivity.
    - intros k Hk. lia. }
  assert (N2 : nn 2%nat = 1%nat).
  { apply (nearest_unique l 2); [apply Hn; simpl; lia|]. unfold nearest, dist2. simpl.
    split; [lia|]. split; [apply P; simpl; lra|]. split.
    - intros k Hk Hd. destruct k as [|[|[|k]]]; simpl in *; try lia; try lra. exfalso; apply Hd; split; reflexivity.
    - intros k Hk Hd. destruct k; [simpl; lra|lia]. }
  simpl. rewrite N0, N1, N2. simpl. do 2 f_equal. unfold mean_of. simpl. field.
Qed.

Lemma covariance_example : let s := mkScales 4 8 10 (1/10) true in
  let l := [mkPoint 50 10 2000 3000; mkPoint (-50) 12 2001 4000] in
  scales_nonzero s /\ has_depth s l /\ some_points s l.
Proof.
  unfold scales_nonzero, has_depth, some_points. simpl. repeat split; try lra; try discriminate.
  intros _ p [<-|[<-|[]]]; simpl; lra.
Qed.

Lemma build_cov_example : let l := [mkCoord 10 20 3000; mkCoord 11 21 3500] in
  let h := mkHScales 4 8 (1/10) true in
  let t := fun i p => if Nat.eqb i 0 then Some (20 + INR p) else None in
  length l = 2%nat /\ table_needed 2 2 t /\ hscales_ok h l.
Proof.
  simpl. split; auto. split.
  - intros _ i p Hi Hp. destruct i as [|[|i]]; try lia; simpl; auto.
    destruct p as [|[|p]]; try lia; simpl; lra.
  - unfold hscales_ok. simpl. repeat split; try lra. intros c [<-|[<-|[]]]; simpl; lra.
Qed.

Lemma exp_inj a b : exp a = exp b -> a = b.
Proof. intros E. now apply exp_inv. Qed.

Lemma build_cov_asym_profile : exists t l h,
  length l = 1%nat /\ table_needed 2 1 t /\ hscales_ok h l /\
  exists m, build_cov 2 1 (fun i p => oX (t i p)) (map fcoord l) (hconfig h) = Ok m /\ m 0%nat 1%nat <> m 1%nat 0%nat.
Proof.
  exists (fun i _ => if Nat.eqb i 0 then Some 20 else Some 10), [mkCoord 10 20 3000], (mkHScales 4 8 (1/10) false).
  assert (T : table_needed 2 1 (fun i _ => if Nat.eqb i 0 then Some 20 else Some 10)).
  { intros _ i p _ _. destruct (Nat.eqb i 0); simpl; lra. }
  assert (H : hscales_ok (mkHScales 4 8 (1/10) false) [mkCoord 10 20 3000]).
  { unfold hscales_ok; simpl. repeat split; try lra. intros c [<-|[]]; simpl; lra. }
  split; auto. split; auto. split; auto.
  destruct (build_cov_blocks 2 1 _ [mkCoord 10 20 3000] _ eq_refl T H) as (m & Em & Hm).
  exists m. split; auto.
  pose proof (Hm 0 0 0 1 ltac:(lia) ltac:(lia) ltac:(lia) ltac:(lia))%nat as E1; cbn [Nat.mul Nat.add] in E1; rewrite E1; clear E1. pose proof (Hm 0 0 1 0 ltac:(lia) ltac:(lia) ltac:(lia) ltac:(lia))%nat as E1; cbn [Nat.mul Nat.add] in E1; rewrite E1; clear E1.
  rewrite horizontal_self. unfold vertical, scale_down, scale_up. simpl.
  repeat (destruct (Rle_dec _ _); try lra). intros E. injection E as E. rewrite !Rmult_1_l in E.
  apply exp_inj in E. lra.
Qed.

Lemma build_cov_asym_profiles : exists t l h,
  length l = 2%nat /\ table_needed 2 2 t /\ hscales_ok h l /\ h_pv h = false /\
  exists m, build_cov 2 2 (fun i p => oX (t i p)) (map fcoord l) (hconfig h) = Ok m /\ m 0%nat 3%nat <> m 3%nat 0%nat.
Proof.
  set (t := fun i p : nat => if Nat.eqb p 0 then (if Nat.eqb i 0 then Some 2 else Some 1) else Some 1).
  exists t, [mkCoord 10 20 3000; mkCoord 10 20 3000], (mkHScales 4 8 (1/10) false).
  assert (T : table_needed 2 2 t).
  { intros _ i p _ _. unfold t. destruct (Nat.eqb p 0), (Nat.eqb i 0); simpl; lra. }
  assert (H : hscales_ok (mkHScales 4 8 (1/10) false) [mkCoord 10 20 3000; mkCoord 10 20 3000]).
  { unfold hscales_ok; simpl. repeat split; try lra. intros c [<-|[<-|[]]]; simpl; lra. }
  split; auto. split; auto. split; auto. split; auto.
  destruct (build_cov_blocks 2 2 t [mkCoord 10 20 3000; mkCoord 10 20 3000] _ eq_refl T H) as (m & Em & Hm).
  exists m. split; auto.
  pose proof (Hm 0 1 0 1 ltac:(lia) ltac:(lia) ltac:(lia) ltac:(lia))%nat as E1; cbn [Nat.mul Nat.add] in E1; rewrite E1; clear E1. pose proof (Hm 1 0 1 0 ltac:(lia) ltac:(lia) ltac:(lia) ltac:(lia))%nat as E1; cbn [Nat.mul Nat.add] in E1; rewrite E1; clear E1. cbn [nth].
  rewrite horizontal_self. unfold vertical, t, scale_down, scale_up. simpl.
  repeat (destruct (Rle_dec _ _); try lra). intros E. injection E as E. rewrite !Rmult_1_l in E.
  apply exp_inj in E. lra.
Qed.

Lemma build_cov_asym_pv : exists t l h,
  length l = 2%nat /\ table_needed 1 2 t /\ hscales_ok h l /\
  exists m, build_cov 1 2 (fun i p => oX (t i p)) (map fcoord l) (hconfig h) = Ok m /\ m 0%nat 1%nat <> m 1%nat 0%nat.
Proof.
  set (a := mkCoord 0 20 3000). set (b := mkCoord 90 20 3000). set (h := mkHScales 4 8 (1/10) true).
  exists (fun _ _ => Some 10), [a; b], h.
  assert (T : table_needed 1 2 (fun _ _ => Some 10)) by (intros X; lia).
  assert (H : hscales_ok h [a; b]).
  { unfold hscales_ok; simpl. repeat split; try lra. intros c [<-|[<-|[]]]; simpl; lra. }
  split; auto. split; auto. split; auto.
  destruct (build_cov_blocks 1 2 _ [a; b] _ eq_refl T H) as (m & Em & Hm).
  exists m. split; auto.
  pose proof (Hm 0 1 0 0 ltac:(lia) ltac:(lia) ltac:(lia) ltac:(lia))%nat as E1; cbn [Nat.mul Nat.add] in E1; rewrite E1; clear E1. pose proof (Hm 1 0 0 0 ltac:(lia) ltac:(lia) ltac:(lia) ltac:(lia))%nat as E1; cbn [Nat.mul Nat.add] in E1; rewrite E1; clear E1. cbn [nth]. rewrite !vertical_self.
  assert (Pa : planetary a = 0).
  { unfold planetary, a. simpl. replace (0 * PI / 180) with 0 by field. rewrite sin_0. field. }
  assert (Pb : planetary b <> 0).
  { unfold planetary, b. simpl. replace (90 * PI / 180) with (PI / 2) by field. rewrite sin_PI2. lra. }
  unfold horizontal. rewrite Pa. cbn [h_pv h]. destruct (Req_EM_T 0 0); [|lra].
  destruct (Req_EM_T (planetary b) 0); [contradiction|]. intros E. injection E as E. rewrite !Rmult_1_r in E.
  apply exp_inj in E.
  assert (Q : (planetary b - 0) * (planetary b - 0) / (planetary b * planetary b + 0 * 0) = 1) by (field; auto).
  rewrite Q in E. cbn [c_0 c_1 a b h_lat h_long h_phi h] in E. lra.
Qed.

Lemma tabulated_example : ~ tabulated (Fin 31) /\ tabulated (Fin 30) /\ tabulated NaN.
Proof.
  repeat split.
  - intros [X|(r & X & Hr)]; [discriminate|]. injection X as <-. lra.
  - right. exists 30. split; auto. lra.
  - now left.
Qed.
