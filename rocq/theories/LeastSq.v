(* Weighted least squares over the reals (mathematics only, no model of /repo code) *)
From Coq Require Import List Reals Lra Lia Arith Bool.
From Verif Require Import Num NumFacts LinR.
Import ListNotations.
Local Open Scope R_scope.

Definition tr (a : rmat) : rmat := fun i j => a j i.
Definition dot (n : nat) (x y : rvec) : R := bsum n (fun i => x i * y i).

Lemma dot_comm n x y : dot n x y = dot n y x.
Proof. apply bsum_ext. intros; ring. Qed.
Lemma dot_plus_l n x y z : dot n (fun i => x i + y i) z = dot n x z + dot n y z.
Proof. unfold dot. rewrite <- bsum_plus. apply bsum_ext. intros; ring. Qed.
Lemma dot_scal_l n c x y : dot n (fun i => c * x i) y = c * dot n x y.
Proof. unfold dot. rewrite <- bsum_scal. apply bsum_ext. intros; ring. Qed.
Lemma dot_plus_r n x y z : dot n z (fun i => x i + y i) = dot n z x + dot n z y.
Proof. rewrite dot_comm, dot_plus_l, (dot_comm n x), (dot_comm n y). reflexivity. Qed.
Lemma dot_scal_r n c x y : dot n y (fun i => c * x i) = c * dot n y x.
Proof. rewrite dot_comm, dot_scal_l, dot_comm. reflexivity. Qed.
Lemma dot_ext n x y x' y' : (forall i, (i < n)%nat -> x i = x' i) -> (forall i, (i < n)%nat -> y i = y' i) ->
  dot n x y = dot n x' y'.
Proof. intros A B. apply bsum_ext. intros i Hi. rewrite A, B; auto. Qed.

Lemma qform_dot n a x : qform n a x = dot n x (mv n a x).
Proof. apply qform_mv. Qed.

Lemma mv_plus n a x y i : mv n a (fun k => x k + y k) i = mv n a x i + mv n a y i.
Proof. unfold mv. rewrite <- bsum_plus. apply bsum_ext. intros; ring. Qed.
Lemma mv_scal n a c x i : mv n a (fun k => c * x k) i = c * mv n a x i.
Proof. unfold mv. rewrite <- bsum_scal. apply bsum_ext. intros; ring. Qed.
Lemma mv_minus n a x y i : mv n a (fun k => x k - y k) i = mv n a x i - mv n a y i.
Proof. unfold mv. rewrite <- bsum_minus. apply bsum_ext. intros; ring. Qed.

(* x . (A y) = (A^T x) . y *)
Lemma dot_mv n m a x y : dot n x (mv m a y) = dot m (mv n (tr a) x) y.
Proof.
  unfold dot, mv, tr.
  rewrite (bsum_ext n _ (fun i => bsum m (fun k => x i * a i k * y k))).
  2:{ intros i _. rewrite <- bsum_scal. apply bsum_ext. intros; ring. }
  rewrite bsum_swap. apply bsum_ext. intros k _. rewrite <- bsum_scal_r.
  apply bsum_ext. intros; ring.
Qed.

Lemma mv_tr_sym n a x i : sym n a -> (i < n)%nat -> mv n (tr a) x i = mv n a x i.
Proof. intros S Hi. apply mv_ext; auto. intros k Hk. apply S; auto. Qed.

Lemma qform_line n a x y t : sym n a ->
  qform n a (fun i => x i + t * y i) = qform n a x + 2 * t * dot n y (mv n a x) + t ^ 2 * qform n a y.
Proof.
  intros S. rewrite !qform_dot.
  rewrite (dot_ext n _ _ (fun i => x i + t * y i) (fun i => mv n a x i + t * mv n a y i)); auto.
  2:{ intros i _. rewrite mv_plus, mv_scal. reflexivity. }
  rewrite dot_plus_l, dot_scal_l, !dot_plus_r, !dot_scal_r.
  assert (E : dot n x (mv n a y) = dot n y (mv n a x)).
  { rewrite dot_mv, dot_comm. apply dot_ext; auto. intros. now apply mv_tr_sym. }
  rewrite E. ring.
Qed.

Lemma psd_null n a x : sym n a -> psd n a -> qform n a x = 0 -> forall i, (i < n)%nat -> mv n a x i = 0.
Proof.
  intros S P E.
  set (y := mv n a x).
  assert (L : forall t, 0 <= 2 * t * dot n y y + t ^ 2 * qform n a y).
  { intros t. pose proof (P (fun i => x i + t * y i)) as Q. rewrite qform_line, E in Q by auto. fold y in Q. lra. }
  assert (D : dot n y y = 0).
  { assert (Dn : 0 <= dot n y y) by (apply bsum_nonneg; intros; apply Rle_0_sqr).
    pose proof (P y) as Q. set (d := dot n y y) in *. set (q := qform n a y) in *.
    destruct (Req_dec q 0) as [Zq|Zq].
    - specialize (L (-1)). rewrite Zq in L. lra.
    - assert (0 < q) by lra. specialize (L (- (d / q))).
      assert (K : 2 * - (d / q) * d + (- (d / q)) ^ 2 * q = - (d * d / q)) by (field; lra).
      rewrite K in L.
      assert (M : d * d / q * q = d * d) by (field; lra).
      assert (0 <= d * d) by apply Rle_0_sqr.
      assert (d * d / q <= 0) by lra.
      assert (d * d <= 0) by nra. nra. }
  intros i Hi. apply (bsum_zero_each n (fun i => y i * y i) ltac:(intros; apply Rle_0_sqr) D) in Hi.
  cbv beta in Hi. apply Rmult_integral in Hi. tauto.
Qed.

Section WLS.
  Variables (n m : nat) (F W : rmat) (y : rvec).
  Definition normal : rmat := mm n (mm n (tr F) W) F.
  Definition resid (b : rvec) : rvec := fun i => y i - mv m F b i.
  Definition wss (b : rvec) : R := qform n W (resid b).

  Lemma normal_mv x a : mv m normal x a = mv n (tr F) (mv n W (mv m F x)) a.
  Proof. unfold normal. rewrite mv_mm. rewrite mv_mm. reflexivity. Qed.

  Hypothesis Wsym : sym n W.
  Hypothesis Wpsd : psd n W.
  Variable b : rvec.
  Hypothesis Hb : forall a, (a < m)%nat -> mv m normal b a = mv n (tr F) (mv n W y) a.

  Lemma normal_orth a : (a < m)%nat -> mv n (tr F) (mv n W (resid b)) a = 0.
  Proof.
    intros Ha. specialize (Hb a Ha). rewrite normal_mv in Hb.
    rewrite (mv_ext n (tr F) (tr F) _ (fun k => mv n W y k - mv n W (mv m F b) k)); auto.
    - rewrite mv_minus. lra.
    - intros k _. unfold resid. apply mv_minus.
  Qed.

  Lemma wss_split c : wss c = wss b + qform n W (mv m F (fun k => b k - c k)).
  Proof.
    unfold wss. set (u := mv m F (fun k => b k - c k)).
    assert (E : qform n W (resid c) = qform n W (fun i => resid b i + 1 * u i)).
    { unfold qform. apply bsum_ext. intros i _. apply bsum_ext. intros j _.
      assert (R : forall i, resid c i = resid b i + 1 * u i).
      { intros k. unfold u, resid. rewrite mv_minus. ring. }
      now rewrite !R. }
    rewrite E, qform_line by auto.
    assert (O : dot n u (mv n W (resid b)) = 0).
    { unfold u. rewrite dot_comm, dot_mv. apply bsum_zero. intros a Ha. rewrite normal_orth by auto. ring. }
    rewrite O. ring.
  Qed.

  Lemma wss_min c : wss b <= wss c.
  Proof. rewrite (wss_split c). pose proof (Wpsd (mv m F (fun k => b k - c k))). lra. Qed.

  Lemma wss_unique c : inj m normal -> wss c = wss b -> forall k, (k < m)%nat -> c k = b k.
  Proof.
    intros I E k Hk. rewrite wss_split in E.
    assert (Q : qform n W (mv m F (fun k => b k - c k)) = 0) by lra.
    assert (Z : b k - c k = 0); [|lra].
    apply (I (fun k => b k - c k)); auto. intros a Ha. rewrite normal_mv.
    unfold mv at 1. apply bsum_zero. intros i Hi. rewrite (psd_null n W _ Wsym Wpsd Q) by auto. ring.
  Qed.
End WLS.

Lemma sym_delta n : sym n delta.
Proof. intros i j _ _. apply delta_sym. Qed.
Lemma qform_delta n x : qform n delta x = bsum n (fun i => x i ^ 2).
Proof.
  unfold qform. apply bsum_ext. intros i Hi.
  rewrite (bsum_ext n _ (fun j => delta i j * (x i * x j))) by (intros; ring).
  rewrite (bsum_delta n i (fun j => x i * x j)) by auto. ring.
Qed.
Lemma psd_delta n : psd n delta.
Proof. intros x. rewrite qform_delta. apply bsum_nonneg. intros; apply pow2_ge_0. Qed.

Lemma inj_ext n a b : eqm n n a b -> inj n a -> inj n b.
Proof.
  intros E I x Hx. apply I. intros i Hi. rewrite <- (Hx i Hi). apply mv_ext; auto.
Qed.
