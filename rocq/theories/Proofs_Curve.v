(* The curves fitted by brk_pt_fit, and instances of the linear-algebra oracles *)
From Coq Require Import ZArith List Bool Reals Lra Lia.
From Verif Require Import Num Np NumFacts NpFacts Stats Spec_Utilities Spec_Finders Spec_Stats
  LinR LeastSq Proofs_Utilities Proofs_Besthist Proofs_Fit.
Import ListNotations.
Local Open Scope R_scope.

Lemma basis_piece b k x c : ascending b -> in_piece b k x -> (c < S (length b))%nat ->
  basis b c x - basis b c (nth k b 0) = delta (S k) c * (x - nth k b 0).
Proof.
  intros Hb (Hk & Hx & Hx2) Hc. destruct c as [|j]; [rewrite delta_diff by lia; simpl; ring|].
  unfold basis. destruct (lt_eq_lt_dec j k) as [[L|E]|L].
  - rewrite delta_diff by lia. rewrite (proj2 (Nat.ltb_lt (S j) (length b))) by lia.
    assert (nth (S j) b 0 <= nth k b 0) by (apply Hb; lia).
    rewrite !Rmin_right by lra. ring.
  - subst j. rewrite delta_same.
    destruct (Nat.ltb_spec (S k) (length b)) as [L|L].
    + specialize (Hx2 L). assert (nth k b 0 <= nth (S k) b 0) by (apply Hb; lia).
      rewrite !Rmin_left by lra. rewrite !Rmax_right by lra. ring.
    + rewrite !Rmax_right by lra. ring.
  - rewrite delta_diff by lia.
    assert (x <= nth (S k) b 0) by (apply Hx2; lia).
    assert (nth (S k) b 0 <= nth j b 0) by (apply Hb; lia).
    pose proof (Rmin_l x (nth (S j) b 0)). pose proof (Rmin_l (nth k b 0) (nth (S j) b 0)).
    destruct (Nat.ltb (S j) (length b)); rewrite !Rmax_left by lra; ring.
Qed.

Lemma curve_piece b beta k x : ascending b -> in_piece b k x ->
  curve b beta x = curve b beta (nth k b 0) + nth (S k) beta 0 * (x - nth k b 0).
Proof.
  intros Hb Hp.
  assert (E : curve b beta x - curve b beta (nth k b 0) = nth (S k) beta 0 * (x - nth k b 0)); [|lra].
  unfold curve. rewrite <- bsum_minus.
  rewrite (bsum_ext _ _ (fun c => delta (S k) c * (nth c beta 0 * (x - nth k b 0)))).
  - destruct Hp as (Hk & _).
    apply (bsum_delta (S (length b)) (S k) (fun c => nth c beta 0 * (x - nth k b 0))). lia.
  - intros c Hc. pose proof (basis_piece b k x c Hb Hp Hc) as Q.
    replace (nth c beta 0 * basis b c x - nth c beta 0 * basis b c (nth k b 0))
      with (nth c beta 0 * (basis b c x - basis b c (nth k b 0))) by ring.
    rewrite Q. ring.
Qed.

Lemma curve_piecewise b beta : ascending b -> piecewise_linear b (curve b beta) (fun k => nth (S k) beta 0).
Proof. intros Hb k x. now apply curve_piece. Qed.

Lemma curve_start b beta : ascending b -> b <> [] -> curve b beta (nth 0 b 0) = nth 0 beta 0.
Proof.
  intros Hb Hn. unfold curve. rewrite bsum_S. cbn [basis]. rewrite Rmult_1_r.
  rewrite bsum_zero; [ring|]. intros j Hj. unfold basis.
  assert (nth 0 b 0 <= nth j b 0) by (apply Hb; lia).
  pose proof (Rmin_l (nth 0 b 0) (nth (S j) b 0)).
  destruct (Nat.ltb (S j) (length b)); rewrite Rmax_left by lra; ring.
Qed.

Lemma piece_exists b x : ascending b -> b <> [] -> nth 0 b 0 <= x -> exists k, in_piece b k x.
Proof.
  intros Hb Hn Hx. exists (count_le x b - 1)%nat.
  assert (L0 : (0 < length b)%nat) by (destruct b; [congruence|simpl; lia]).
  pose proof (proj2 (count_le_ascending x b 0 Hb L0) Hx). pose proof (count_le_bound x b).
  split; [lia|]. split.
  - apply (count_le_ascending x b); auto; lia.
  - intros Hk. destruct (Rle_dec x (nth (S (count_le x b - 1)) b 0)); auto.
    exfalso. assert (Q : nth (S (count_le x b - 1)) b 0 <= x) by lra.
    apply (count_le_ascending x b _ Hb Hk) in Q. lia.
Qed.

Lemma curve_represents b f slope : ascending b -> b <> [] -> piecewise_linear b f slope ->
  let beta := f (nth 0 b 0) :: map slope (seq 0 (length b)) in
  forall x, nth 0 b 0 <= x -> f x = curve b beta x.
Proof.
  intros Hb Hn Hf beta.
  assert (S1 : forall k, (k < length b)%nat -> nth (S k) beta 0 = slope k).
  { intros k Hk. unfold beta. cbn [nth]. now rewrite nth_seq_map. }
  assert (K : forall k, (k < length b)%nat -> f (nth k b 0) = curve b beta (nth k b 0)).
  { induction k as [|k IH]; intros Hk.
    - rewrite curve_start by auto. reflexivity.
    - assert (P : in_piece b k (nth (S k) b 0)).
      { split; [lia|]. split; [apply Hb; lia|]. intros _. lra. }
      rewrite (Hf k _ P), (curve_piece b beta k _ Hb P), IH, S1 by lia. reflexivity. }
  intros x Hx. destruct (piece_exists b x Hb Hn Hx) as (k & P).
  rewrite (Hf k _ P), (curve_piece b beta k _ Hb P), K, S1 by (destruct P; lia). reflexivity.
Qed.

(* ---- continuity ---- *)
Lemma basis_lipschitz b c x y : Rabs (basis b c x - basis b c y) <= Rabs (x - y).
Proof.
  unfold basis. destruct c as [|k]; [rewrite Rminus_diag_eq by auto; rewrite Rabs_R0; apply Rabs_pos|].
  destruct (Nat.ltb (S k) (length b)); unfold Rmax, Rmin;
    repeat (destruct (Rle_dec _ _)); unfold Rabs; repeat (destruct (Rcase_abs _)); lra.
Qed.
Lemma continuity_pt_same f g x : (forall y, f y = g y) -> continuity_pt f x -> continuity_pt g x.
Proof.
  intros E C e He. destruct (C e He) as (d & Hd & P). exists d. split; auto. intros y Hy. rewrite <- !E. now apply P.
Qed.
Lemma curve_continuous b beta : continuity (curve b beta).
Proof.
  intros x. unfold curve.
  assert (G : forall n, continuity_pt (fun y => bsum n (fun c => nth c beta 0 * basis b c y)) x).
  { induction n as [|n IH].
    - apply (continuity_pt_same (fun _ => 0)); [reflexivity|]. apply continuity_pt_const. now intros a c.
    - apply (continuity_pt_same (fun y => bsum n (fun c => nth c beta 0 * basis b c y) + nth n beta 0 * basis b n y)).
      { intros y. now rewrite bsum_Sr. }
      apply (continuity_pt_plus (fun y => bsum n (fun c => nth c beta 0 * basis b c y)) (fun y => nth n beta 0 * basis b n y)); auto.
      apply (continuity_pt_scal (basis b n)). intros e He. exists e. split; auto. intros y [_ Hd].
      unfold dist in *. simpl in *. unfold R_dist in *. eapply Rle_lt_trans; [apply basis_lipschitz|exact Hd]. }
  apply G.
Qed.

(* ---- instances of the oracles: exact elimination ---- *)
Definition exact_det (n : nat) (A : nat -> nat -> XR) : XR :=
  match ginv n (fun i j => fin_val (A i j)) with Some _ => Fin 1 | None => Fin 0 end.
Definition exact_solve (n m : nat) (A B : nat -> nat -> XR) : res (nat -> nat -> XR) :=
  match ginv n (fun i j => fin_val (A i j)) with
  | Some c => Ok (fun i j => Fin (mm n c (fun i j => fin_val (B i j)) i j))
  | None => Raise ValueError
  end.

Lemma finmat_val n m A a : finmat n m A a -> eqm n m (fun i j => fin_val (A i j)) a.
Proof. intros H i j Hi Hj. rewrite H by auto. reflexivity. Qed.
Lemma eqm_sym n m a b : eqm n m a b -> eqm n m b a.
Proof. intros H i j Hi Hj. symmetry. now apply H. Qed.

Lemma exact_det_ok : det_ok exact_det.
Proof.
  intros n A a H. unfold exact_det. pose proof (finmat_val _ _ _ _ H) as E.
  destruct (ginv n (fun i j => fin_val (A i j))) as [c|] eqn:G.
  - exists 1. split; auto. split; [|lra]. intros _. apply (inj_ext n _ _ E).
    apply ginv_sound in G. apply right_inverse_inj in G. destruct G as [_ L]. now apply inverse_inj with c.
  - exists 0. split; auto. split; [lra|]. intros I. exfalso. apply (inj_ext n _ _ (eqm_sym _ _ _ _ E)) in I.
    destruct (inj_invertible n _ I) as (c & Ec & _). congruence.
Qed.
Lemma exact_solve_ok : solve_ok exact_solve.
Proof.
  intros n m A a B b HA HB I. unfold exact_solve. pose proof (finmat_val _ _ _ _ HA) as EA.
  pose proof (finmat_val _ _ _ _ HB) as EB.
  apply (inj_ext n _ _ (eqm_sym _ _ _ _ EA)) in I.
  destruct (inj_invertible n _ I) as (c & -> & [Rc _]).
  exists (fun i j => Fin (mm n c (fun i j => fin_val (B i j)) i j)), (mm n c (fun i j => fin_val (B i j))).
  split; auto. split; [intros i j _ _; reflexivity|]. intros i j Hi Hj.
  rewrite <- mm_assoc.
  transitivity (mm n delta (fun i j => fin_val (B i j)) i j).
  - unfold mm at 1 3. apply bsum_ext. intros k Hk. f_equal.
    rewrite <- (Rc i k Hi Hk). unfold mm. apply bsum_ext. intros q Hq. now rewrite EA.
  - unfold mm. rewrite (bsum_delta n i (fun k => fin_val (B k j)) Hi). now apply EB.
Qed.

(* ---- a worked case: x = 0, 1, 2, break at 1 ---- *)
Lemma determined_example : determined [0; 1] [0; 1; 2] None.
Proof.
  unfold determined. intros x Hx.
  pose proof (Hx 0%nat ltac:(simpl; lia)) as H0. pose proof (Hx 1%nat ltac:(simpl; lia)) as H1.
  pose proof (Hx 2%nat ltac:(simpl; lia)) as H2. clear Hx.
  unfold mv, normal_matrix, basis, bsum, weight, delta in H0, H1, H2. simpl in H0, H1, H2.
  assert (M1 : forall a b : R, a <= b -> Rmax a b = b) by (intros; now apply Rmax_right).
  assert (M2 : forall a b : R, b <= a -> Rmax a b = a) by (intros; now apply Rmax_left).
  assert (M3 : forall a b : R, a <= b -> Rmin a b = a) by (intros; now apply Rmin_left).
  assert (M4 : forall a b : R, b <= a -> Rmin a b = b) by (intros; now apply Rmin_right).
  rewrite ?(M3 0 1), ?(M3 1 1), ?(M4 2 1) in H0, H1, H2 by lra.
  rewrite ?(M1 0 (0 - 0)), ?(M1 0 (1 - 0)), ?(M2 0 (0 - 1)), ?(M1 0 (1 - 1)), ?(M1 0 (2 - 1)) in H0, H1, H2 by lra.
  intros i Hi. destruct i as [|[|[|i]]]; simpl in Hi; try lia; lra.
Qed.
