(* Positive semidefinite kernels over the reals (mathematics only, no model of /repo code):
   the Gaussian kernel and the relative-difference kernel of the potential vorticity. *)
From Coq Require Import List Reals Lra Lia Arith FunctionalExtensionality.
From Verif Require Import Num NumFacts LinR.
Local Open Scope R_scope.

(* kernels generated from rank-one kernels by sums and pointwise limits *)
Inductive pk {X : Type} : (X -> X -> R) -> Prop :=
  | pk_one (f : X -> R) : pk (fun x y => f x * f y)
  | pk_sum (K L : X -> X -> R) : pk K -> pk L -> pk (fun x y => K x y + L x y)
  | pk_lim (Ks : nat -> X -> X -> R) (K : X -> X -> R) :
      (forall n, pk (Ks n)) -> (forall x y, Un_cv (fun n => Ks n x y) (K x y)) -> pk K.

Lemma Un_cv_const c : Un_cv (fun _ => c) c.
Proof.
  intros e He. exists 0%nat. intros n _. unfold R_dist. rewrite Rminus_diag_eq, Rabs_R0; auto.
Qed.

Section K.
  Context {X : Type}.
  Implicit Types K L : X -> X -> R.

  Lemma pk_ext K L : (forall x y, K x y = L x y) -> pk K -> pk L.
  Proof.
    intros E P. apply (pk_lim (fun _ => K)); auto. intros x y. rewrite <- E. apply Un_cv_const.
  Qed.

  Lemma pk_scale_one K (f : X -> R) : pk K -> pk (fun x y => f x * f y * K x y).
  Proof.
    induction 1 as [g|K L _ IK _ IL|Ks K _ IK HK].
    - apply (pk_ext (fun x y => (f x * g x) * (f y * g y))); [intros; ring|].
      apply (pk_one (fun x => f x * g x)).
    - apply (pk_ext (fun x y => f x * f y * K x y + f x * f y * L x y)); [intros; ring|].
      now apply pk_sum.
    - apply (pk_lim (fun n x y => f x * f y * Ks n x y)); auto.
      intros x y. apply CV_mult; [apply Un_cv_const|auto].
  Qed.

  Lemma pk_prod K L : pk K -> pk L -> pk (fun x y => K x y * L x y).
  Proof.
    intros PK PL. induction PK as [g|K K' _ IK _ IK'|Ks K _ IK HK].
    - now apply pk_scale_one.
    - apply (pk_ext (fun x y => K x y * L x y + K' x y * L x y)); [intros; ring|].
      now apply pk_sum.
    - apply (pk_lim (fun n x y => Ks n x y * L x y)); auto.
      intros x y. apply CV_mult; [auto|apply Un_cv_const].
  Qed.

  Lemma pk_const c : 0 <= c -> pk (fun _ _ : X => c).
  Proof.
    intros Hc. apply (pk_ext (fun _ _ => sqrt c * sqrt c)); [intros; now apply sqrt_sqrt|].
    apply (pk_one (fun _ => sqrt c)).
  Qed.

  Lemma pk_scal c K : 0 <= c -> pk K -> pk (fun x y => c * K x y).
  Proof. intros. apply pk_prod; auto. now apply pk_const. Qed.

  Lemma pk_pow K n : pk K -> pk (fun x y => K x y ^ n).
  Proof.
    intros P. induction n as [|n IH]; simpl.
    - apply pk_const. lra.
    - now apply pk_prod.
  Qed.

  Lemma pk_series K (a : nat -> R) n : (forall i, 0 <= a i) -> pk K ->
    pk (fun x y => sum_f_R0 (fun k => a k * K x y ^ k) n).
  Proof.
    intros Ha P. induction n as [|n IH]; cbn [sum_f_R0].
    - apply pk_scal; auto. now apply pk_pow.
    - apply pk_sum; auto. apply pk_scal; auto. now apply pk_pow.
  Qed.

  Lemma pk_exp K : pk K -> pk (fun x y => exp (K x y)).
  Proof.
    intros P. apply (pk_lim (fun n x y => E1 (K x y) n)).
    - intros n. unfold E1. apply pk_series; auto.
      intros i. left. apply Rinv_0_lt_compat. apply INR_fact_lt_0.
    - intros x y. apply E1_cvg.
  Qed.

  (* every pk kernel is positive semidefinite on every finite family of points *)
  Lemma pk_psd K n (p : nat -> X) : pk K -> psd n (fun i j => K (p i) (p j)).
  Proof.
    intros P w. induction P as [f|K L _ IK _ IL|Ks K _ IK HK].
    - assert (E : qform n (fun i j => f (p i) * f (p j)) w =
                  bsum n (fun i => w i * f (p i)) * bsum n (fun i => w i * f (p i))).
      { unfold qform. rewrite <- bsum_scal_r. apply bsum_ext. intros i _. rewrite <- bsum_scal.
        apply bsum_ext. intros; ring. }
      rewrite E. apply Rle_0_sqr.
    - assert (E : qform n (fun i j => K (p i) (p j) + L (p i) (p j)) w =
                  qform n (fun i j => K (p i) (p j)) w + qform n (fun i j => L (p i) (p j)) w).
      { unfold qform. rewrite <- bsum_plus. apply bsum_ext. intros i _. rewrite <- bsum_plus.
        apply bsum_ext. intros; ring. }
      rewrite E. lra.
    - apply (@Rle_cv_lim (fun _ => 0) (fun q => qform n (fun i j => Ks q (p i) (p j)) w)); auto.
      + apply Un_cv_const.
      + unfold qform.
        assert (S : forall m (F : nat -> nat -> R) (G : nat -> R),
          (forall i, Un_cv (F i) (G i)) -> Un_cv (fun q => bsum m (fun i => F i q)) (bsum m G)).
        { induction m as [|m IH]; intros F G HF.
          - exact (Un_cv_const 0).
          - assert (Q : Un_cv (fun q => F 0%nat q + bsum m (fun i => F (S i) q))
                              (G 0%nat + bsum m (fun i => G (S i)))).
            { apply CV_plus; auto. }
            rewrite bsum_S. intros e He. destruct (Q e He) as [N HN]. exists N. intros q Hq.
            rewrite bsum_S. apply HN; auto. }
        apply (S n (fun i q => bsum n (fun j => w i * w j * Ks q (p i) (p j)))
                   (fun i => bsum n (fun j => w i * w j * K (p i) (p j)))).
        intros i. apply (S n (fun j q => w i * w j * Ks q (p i) (p j))
                            (fun j => w i * w j * K (p i) (p j))).
        intros j. apply CV_mult; [apply Un_cv_const|apply HK].
  Qed.

  (* Gaussian kernel of a coordinate *)
  Lemma pk_gauss (f : X -> R) : pk (fun x y => exp (- (f x - f y)²)).
  Proof.
    apply (pk_ext (fun x y => exp (- (f x)²) * exp (- (f y)²) * exp (2 * (f x * f y)))).
    - intros x y. rewrite <- !exp_plus. f_equal. unfold Rsqr. ring.
    - apply (pk_scale_one _ (fun x => exp (- (f x)²))). apply pk_exp. apply pk_scal; [lra|].
      apply pk_one.
  Qed.

  (* Cauchy kernel of a positive coordinate *)
  Lemma pk_cauchy (f : X -> R) : (forall x, 0 < f x) -> pk (fun x y => / (f x + f y)).
  Proof.
    intros Hf. set (u := fun x => (1 - f x) / (1 + f x)).
    assert (Hu : forall x, Rabs (u x) < 1).
    { intros x. specialize (Hf x). apply Rabs_def1; unfold u.
      - apply Rmult_lt_reg_r with (1 + f x); [lra|]. unfold Rdiv.
        rewrite Rmult_assoc, Rinv_l by lra. lra.
      - apply Rmult_lt_reg_r with (1 + f x); [lra|]. unfold Rdiv.
        rewrite Rmult_assoc, Rinv_l by lra. lra. }
    apply (pk_ext (fun x y => (/2) * ((1 + u x) * (1 + u y) * / (1 - u x * u y)))).
    - intros x y. pose proof (Hf x). pose proof (Hf y).
      assert (E : 1 - u x * u y = 2 * (f x + f y) / ((1 + f x) * (1 + f y))).
      { unfold u. field. lra. }
      rewrite E. unfold u. field. repeat split; try lra.
    - apply pk_scal; [lra|]. apply (pk_scale_one _ (fun x => 1 + u x)).
      apply (pk_lim (fun n x y => sum_f_R0 (fun k => 1 * (u x * u y) ^ k) n)).
      + intros n. apply (pk_series (fun x y => u x * u y) (fun _ => 1)); [intros; lra|]. apply pk_one.
      + intros x y. assert (B : Rabs (u x * u y) < 1).
        { rewrite Rabs_mult. pose proof (Hu x). pose proof (Hu y).
          pose proof (Rabs_pos (u x)). pose proof (Rabs_pos (u y)). nra. }
        exact (GP_infinite _ B).
  Qed.

  (* the relative difference kernel exp(-((p-q)/sqrt(p^2+q^2)/phi)^2) of a non-zero coordinate *)
  Lemma pk_relative (f : X -> R) phi : (forall x, f x <> 0) -> phi <> 0 ->
    pk (fun x y => exp (- ((f x - f y) / sqrt ((f x)² + (f y)²) / phi)²)).
  Proof.
    intros Hf Hp.
    assert (Hpos : forall x, 0 < (f x)²) by (intros; apply Rsqr_pos_lt; auto).
    apply (pk_ext (fun x y => exp (- / phi²) *
             exp (2 / phi² * (f x * f y * / ((f x)² + (f y)²))))).
    - intros x y. rewrite <- exp_plus. f_equal.
      pose proof (Hpos x). pose proof (Hpos y).
      assert (S : 0 < (f x)² + (f y)²) by lra.
      assert (Q : (sqrt ((f x)² + (f y)²))² = (f x)² + (f y)²) by (apply Rsqr_sqrt; lra).
      assert (P : 0 < phi²) by (apply Rsqr_pos_lt; auto).
      assert (D : sqrt ((f x)² + (f y)²) <> 0) by (apply Rgt_not_eq, sqrt_lt_R0; lra).
      replace (((f x - f y) / sqrt ((f x)² + (f y)²) / phi)²)
        with ((f x - f y)² / (sqrt ((f x)² + (f y)²))² / phi²).
      2:{ generalize dependent (sqrt ((f x)² + (f y)²)). intros r _ Hr. unfold Rsqr. field.
          split; auto. }
      rewrite Q. unfold Rsqr. unfold Rsqr in S, P. field. split; lra.
    - apply pk_scal; [left; apply exp_pos|]. apply pk_exp. apply pk_scal.
      { assert (P : 0 < phi²) by (apply Rsqr_pos_lt; auto).
        apply Rlt_le. apply Rdiv_lt_0_compat; lra. }
      apply pk_scale_one. apply pk_cauchy. auto.
  Qed.
End K.
