(* Proofs for fit_cond: the constant and the linear fit *)
From Coq Require Import String ZArith List Bool Reals Lra Lia Sorted Permutation FunctionalExtensionality.
From Verif Require Import Num Np NumFacts NpFacts Utilities Finders Stats FitCond Spec_Utilities Spec_Finders Spec_Stats
  Spec_FitCond LinR LeastSq Proofs_Utilities Proofs_Besthist Proofs_Thetas2 Proofs_Stats1 Proofs_Fit Proofs_FC1 Proofs_FC2 Proofs_FC3.
Import ListNotations.
Local Open Scope R_scope.
Local Open Scope list_scope.

(* ---- diagonal weights ---- *)
Definition diagR (w : list R) : rmat := fun i j => if Nat.eqb i j then nth i w 0 else 0.
Lemma diagR_delta w i j : diagR w i j = delta i j * nth j w 0.
Proof. unfold diagR, delta. destruct (Nat.eqb_spec i j); subst; ring. Qed.
Lemma diagm_fin w n : length w = n -> finmat n n (diagm (vec (map Fin w))) (diagR w).
Proof.
  intros L i j Hi Hj. unfold diagm, diagR. destruct (Nat.eqb i j); [|reflexivity]. apply vec_fin. lia.
Qed.
Lemma bsum_diag n w i f : (i < n)%nat -> bsum n (fun j => diagR w i j * f j) = nth i w 0 * f i.
Proof.
  intros Hi. rewrite (bsum_ext n _ (fun j => delta i j * (nth j w 0 * f j))).
  - apply bsum_delta. auto.
  - intros j _. rewrite diagR_delta. ring.
Qed.
Lemma bsum_diag_l n w j f : (j < n)%nat -> bsum n (fun i => f i * diagR w i j) = f j * nth j w 0.
Proof.
  intros Hj. rewrite (bsum_ext n _ (fun i => f i * nth j w 0 * delta i j)).
  - apply (bsum_delta_r n j (fun i => f i * nth j w 0)). auto.
  - intros i _. rewrite diagR_delta. ring.
Qed.
Lemma qform_diag n w x : qform n (diagR w) x = bsum n (fun i => nth i w 0 * x i ^ 2).
Proof.
  unfold qform. apply bsum_ext. intros i Hi.
  rewrite (bsum_ext n _ (fun j => diagR w i j * (x i * x j))) by (intros; ring).
  rewrite bsum_diag by auto. ring.
Qed.
Lemma sym_diag n w : sym n (diagR w).
Proof. intros i j _ _. unfold diagR. rewrite Nat.eqb_sym. destruct (Nat.eqb_spec j i); subst; auto. Qed.
Lemma nth_pos w i : (forall v, In v w -> 0 < v) -> (i < length w)%nat -> 0 < nth i w 0.
Proof. intros P Hi. apply P. now apply nth_In. Qed.
Lemma psd_diag n w : length w = n -> (forall v, In v w -> 0 < v) -> psd n (diagR w).
Proof.
  intros L P x. rewrite qform_diag. apply bsum_nonneg. intros i Hi. subst n. pose proof (nth_pos w i P Hi). nra.
Qed.

Lemma brk_weights_ext det solve (x y : list XR) W W' b :
  (forall i j, (i < length x)%nat -> (j < length x)%nat -> W i j = W' i j) ->
  brk_pt_fit det solve x y (Some W) b = brk_pt_fit det solve x y (Some W') b.
Proof.
  intros E. set (n := length x) in *.
  assert (M : forall (A : nat -> nat -> XR) i k, (k < n)%nat -> mmul n A W i k = mmul n A W' i k).
  { intros A i k Hk. unfold mmul. f_equal. apply map_ext_in. intros j Hj. apply in_seq in Hj. now rewrite E by lia. }
  assert (M2 : forall A B : nat -> nat -> XR, mmul n (mmul n A W) B = mmul n (mmul n A W') B).
  { intros A B. apply functional_extensionality. intros i. apply functional_extensionality. intros j.
    unfold mmul at 1 3. f_equal. apply map_ext_in. intros k Hk. apply in_seq in Hk. now rewrite M by lia. }
  assert (M3 : forall A v, mvmul n (mmul n A W) v = mvmul n (mmul n A W') v).
  { intros A v. apply functional_extensionality. intros i.
    unfold mvmul. f_equal. apply map_ext_in. intros k Hk. apply in_seq in Hk. now rewrite M by lia. }
  unfold brk_pt_fit. fold n. destruct (negb _); auto. destruct x as [|x0 xr]; auto.
  rewrite M2. destruct (neqb _ _); auto.
  destruct (solve _ _ _ _) as [s|]; auto. cbn [bind]. now rewrite M3.
Qed.

(* ---- the line in the basis of brk_pt_fit ---- *)
Lemma curve_line x1 b0 b1 x : x1 <= x -> curve [x1] [b0; b1] x = b0 + b1 * (x - x1).
Proof.
  intros H. unfold curve. cbn [length]. rewrite !bsum_S, bsum_0. cbn [nth basis length].
  change (Nat.ltb 1 1) with false. cbn iota. rewrite Rmax_right by lra. ring.
Qed.

Section Line.
  Variables (x1 : R) (xr w : list R).
  Notation xs := (x1 :: xr).
  Notation n := (length xs).
  Hypothesis Hxs : ascending xs.
  Hypothesis Hw : length w = n.
  Hypothesis Hpos : forall v, In v w -> 0 < v.

  Lemma hd_le i : (i < n)%nat -> x1 <= nth i xs 0.
  Proof. intros Hi. apply (Hxs 0%nat i). split; [lia|]. exact Hi. Qed.
  Lemma Fmat_line i : (i < n)%nat -> forall x, mv 2 (Fmat [x1] xs) x i = x 0%nat + x 1%nat * (nth i xs 0 - x1).
  Proof.
    intros Hi x. unfold mv. rewrite !bsum_S, bsum_0. unfold Fmat. generalize (hd_le i Hi). generalize (nth i xs 0).
    intros v Hv. cbn [basis nth length].
    change (Nat.ltb 1 1) with false. cbn iota. rewrite Rmax_right by lra. ring.
  Qed.
  Lemma normal_qform x : qform 2 (normal_matrix [x1] xs (Some (diagR w))) x
    = bsum n (fun i => nth i w 0 * (x 0%nat + x 1%nat * (nth i xs 0 - x1)) ^ 2).
  Proof.
    rewrite normal_matrix_normal, qform_dot. cbn [weight].
    rewrite (dot_ext 2 x (mv 2 (normal n (Fmat [x1] xs) (diagR w)) x) x
               (mv n (tr (Fmat [x1] xs)) (mv n (diagR w) (mv 2 (Fmat [x1] xs) x)))) by (auto; intros; apply normal_mv).
    rewrite dot_mv. change (tr (tr (Fmat [x1] xs))) with (Fmat [x1] xs).
    rewrite <- qform_dot, qform_diag. apply bsum_ext. intros i Hi. now rewrite Fmat_line.
  Qed.
  Lemma determined_line : (exists v, In v xs /\ v <> x1) -> determined [x1] xs (Some (diagR w)).
  Proof.
    intros (v & Hv & Nv). unfold determined. cbn [length]. intros x Hx.
    assert (Q : qform 2 (normal_matrix [x1] xs (Some (diagR w))) x = 0).
    { rewrite qform_mv. apply bsum_zero. intros i Hi. rewrite Hx by auto. ring. }
    rewrite normal_qform in Q.
    assert (Z : forall i, (i < n)%nat -> x 0%nat + x 1%nat * (nth i xs 0 - x1) = 0).
    { intros i Hi. pose proof (nth_pos w i Hpos ltac:(lia)) as P.
      assert (NN : forall k, (k < n)%nat -> 0 <= nth k w 0 * (x 0%nat + x 1%nat * (nth k xs 0 - x1)) ^ 2).
      { intros k Hk. pose proof (nth_pos w k Hpos ltac:(lia)). apply Rmult_le_pos; [lra|apply pow2_ge_0]. }
      pose proof (bsum_zero_each n _ NN Q i Hi) as E.
      cbv beta in E. apply Rmult_integral in E as [E|E]; [lra|]. rewrite <- Rsqr_pow2 in E. now apply Rsqr_0_uniq. }
    pose proof (Z 0%nat ltac:(cbn [length]; lia)) as Z0. cbn [nth] in Z0.
    apply (In_nth _ _ 0) in Hv as (i & Hi & Ei). pose proof (Z i Hi) as Zi. rewrite Ei in Zi.
    assert (x 0%nat = 0) by lra. assert (x 1%nat = 0).
    { assert (x 1%nat * (v - x1) = 0) by lra. apply Rmult_integral in H0 as [|]; lra. }
    intros k Hk. destruct k as [|[|k]]; auto; lia.
  Qed.
  Lemma undetermined_line : (forall v, In v xs -> v = x1) -> ~ determined [x1] xs (Some (diagR w)).
  Proof.
    intros E D. unfold determined in D. cbn [length] in D.
    specialize (D (fun k => if Nat.eqb k 1 then 1 else 0)). cbv beta in D.
    assert (Z : 1 = 0); [|lra]. apply (D) with (i := 1%nat); [|lia]. intros a Ha.
    rewrite normal_matrix_normal, normal_mv. unfold mv at 1. apply bsum_zero. intros i Hi.
    assert (Q : mv n (weight (Some (diagR w))) (mv (S (length [x1])) (Fmat [x1] xs) (fun k => if Nat.eqb k 1 then 1 else 0)) i = 0).
    { unfold mv at 1. apply bsum_zero. intros j Hj. rewrite Fmat_line by auto. cbn [Nat.eqb].
      rewrite (E (nth j xs 0)) by (apply nth_In; auto). ring. }
    transitivity (tr (Fmat [x1] xs) a i * 0); [|ring]. f_equal. exact Q.
  Qed.

  Lemma weighted_ss_line ys b0 b1 : length ys = n ->
    weighted_ss (Some (diagR w)) (residuals [x1] xs ys [b0; b1])
    = bsum n (fun i => nth i w 0 * (nth i ys 0 - (b0 + b1 * (nth i xs 0 - x1))) ^ 2).
  Proof.
    intros L. unfold weighted_ss.
    assert (Lr : length (residuals [x1] xs ys [b0; b1]) = n).
    { unfold residuals. rewrite map_length, combine_length, L. apply Nat.min_id. }
    rewrite Lr. cbn [weight]. change (qform n (diagR w) (fun i => nth i (residuals [x1] xs ys [b0; b1]) 0) =
      bsum n (fun i => nth i w 0 * (nth i ys 0 - (b0 + b1 * (nth i xs 0 - x1))) ^ 2)).
    rewrite qform_diag. apply bsum_ext. intros i Hi. unfold residuals.
    rewrite (nth_map _ _ _ _ (0, 0)) by (rewrite combine_length, L, Nat.min_id; auto).
    rewrite combine_nth by auto. cbn [fst snd]. rewrite curve_line by now apply hd_le. reflexivity.
  Qed.
End Line.
