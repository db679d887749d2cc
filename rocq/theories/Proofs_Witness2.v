(* Concrete cases meeting the hypotheses of C46-C49, C51-C53, C81 and C82 *)
From Coq Require Import ZArith List Bool Reals Lra Lia Permutation.
From Verif Require Import Num Np Stats Wrangling LinR Spec_Utilities Spec_Finders Spec_Stats Spec_FitCond Spec_Map Spec_Interp
  Proofs_Finders Proofs_Map Proofs_Map2 Proofs_Interp Proofs_Interp2.
Import ListNotations.
Local Open Scope R_scope.

(* ---- C48: two casts without noise ---- *)
Lemma demo_correlated : 0 < correlation demo_scales (mkPoint 50 10 2000 3000) (mkPoint 51 12 2001 4000) < 1.
Proof.
  unfold correlation. split; [apply exp_pos|]. rewrite <- exp_0. apply exp_increasing.
  unfold separation2. cbn [demo_scales s_lat s_long s_age s_phi s_pv p_lat p_long p_date p_z].
  pose proof (vd2_nonneg (1 / 10) (vort 50 3000) (vort 51 4000)). destruct (Req_EM_T 10 0); nra.
Qed.
Lemma demo_exact : regular demo_scales 1 0 demo_data.
Proof.
  intros x Hx i Hi. change (length demo_data) with 2%nat in *.
  assert (H0 := Hx 0%nat ltac:(lia)). assert (H1 := Hx 1%nat ltac:(lia)). clear Hx.
  unfold mv, bsum, covariances in H0, H1. cbn in H0, H1. unfold cast in H0, H1. cbn [nth demo_data] in H0, H1.
  rewrite !corr_self in H0, H1. pose proof demo_correlated as K. rewrite (corr_sym _ (mkPoint 51 12 2001 4000)) in H1.
  set (k := correlation _ _ _) in *. clearbody k.
  assert (x 0%nat = - (k * x 1%nat)) as E by lra. rewrite E in H1.
  assert ((1 - k * k) * x 1%nat = 0) as F by lra. apply Rmult_integral in F. destruct F as [F|F]; [nra|].
  destruct i as [|[|i]]; [|exact F|lia]. rewrite E, F. ring.
Qed.
Lemma demo_first : regular demo_scales 1 (1 / 10) [mkPoint 50 10 2000 3000].
Proof.
  apply noise_regular; try lra.
  - unfold scales_nonzero. cbn. repeat split; (intros _; lra) || lra.
  - intros _ p [<-|[]]. cbn. lra.
Qed.

(* ---- C51: salinity, temperature and pressure never together ---- *)
Definition missing : array2 XR := mkArray2 XR 2%nat 1%nat (fun _ _ => NaN).
Lemma missing_samples j : (j < a_cols missing)%nat -> samples missing (demo 10 5) (demo 100 200) j = [].
Proof. reflexivity. Qed.
Lemma missing_shape a b : same_shape missing (demo a b).
Proof. split; reflexivity. Qed.
Lemma shapes_differ : ~ (same_shape (demo 35 36) (mkArray2 XR 3%nat 1%nat (fun _ _ => Fin 10)) /\
  same_shape (mkArray2 XR 3%nat 1%nat (fun _ _ => Fin 10)) (demo 100 200)).
Proof. intros [[E _] _]. discriminate E. Qed.

(* ---- C53: a warm station beside the one of C50 ---- *)
Definition beside (c d a b : R) : array2 XR :=
  mkArray2 XR 2%nat 2%nat (fun i j => match i, j with O, O => Fin c | _, O => Fin d | O, _ => Fin a | _, _ => Fin b end).
Lemma beside_shape a b c d a' b' c' d' : same_shape (beside a b c d) (beside a' b' c' d').
Proof. split; reflexivity. Qed.
Lemma beside_samples : samples (beside 34 34 35 36) (beside 20 19 10 5) (beside 50 60 100 200) 1
  = samples (demo 35 36) (demo 10 5) (demo 100 200) 0.
Proof. reflexivity. Qed.
Lemma beside_ok : exists r,
  interp_climatology (beside 34 34 35 36) (beside 20 19 10 5) (beside 50 60 100 200) [(Fin 35, Fin 8, Fin 150)] = Ok r.
Proof.
  destruct (interp_total (beside 34 34 35 36) (beside 20 19 10 5) (beside 50 60 100 200) (beside_shape _ _ _ _ _ _ _ _)
    (beside_shape _ _ _ _ _ _ _ _) [(Fin 35, Fin 8, Fin 150)]) as [(_ & (q & [<-|[]] & T) & _)|(_ & r & E & F)]; [cbn; lia| |eauto].
  exfalso. destruct T as (s & t & p & E & Q). cbn in E. injection E as <- <- <-. destruct Q as [Q|(j & Hj & I)].
  - specialize (Q 0%nat ltac:(cbn; lia)). cbn in Q. lia.
  - cbn in Hj. destruct j as [|[|j]]; [| |lia].
    + destruct I as [(k & Hk & Ik) _]. cbn in Hk. assert (k = 0)%nat as -> by lia. unfold at_, p_theta in Ik. cbn in Ik. lra.
    + destruct I as [_ I]. apply (I 0%nat).
      * split; [cbn; lia|]. unfold at_, p_theta. cbn. lra.
      * unfold sloped, at_, p_theta. cbn. lra.
Qed.
