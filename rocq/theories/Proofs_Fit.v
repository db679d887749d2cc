(* Proofs for brk_pt_fit *)
From Coq Require Import ZArith List Bool Reals Lra Lia.
From Verif Require Import Num Np NumFacts NpFacts Utilities Finders Stats Spec_Utilities Spec_Finders Spec_Stats
  LinR LeastSq Proofs_Utilities Proofs_Besthist Proofs_Thetas2.
Import ListNotations.
Local Open Scope R_scope.

(* ---- finite matrices ---- *)
Lemma mmul_fin n p q A B a b : finmat p n A a -> finmat n q B b -> finmat p q (mmul n A B) (mm n a b).
Proof.
  intros HA HB i j Hi Hj. unfold mmul, mm, bsum.
  rewrite (map_ext_in _ (fun k => Fin (a i k * b k j))).
  - rewrite <- (map_map (fun k => a i k * b k j) Fin). apply nsum_fin.
  - intros k Hk. apply in_seq in Hk. rewrite HA, HB by lia. reflexivity.
Qed.
Lemma mvmul_fin n A a v u i : (forall k, (k < n)%nat -> A i k = Fin (a i k)) ->
  (forall k, (k < n)%nat -> v k = Fin (u k)) -> mvmul n A v i = Fin (mv n a u i).
Proof.
  intros HA Hv. unfold mvmul, mv, bsum.
  rewrite (map_ext_in _ (fun k => Fin (a i k * u k))).
  - rewrite <- (map_map (fun k => a i k * u k) Fin). apply nsum_fin.
  - intros k Hk. apply in_seq in Hk. rewrite HA, Hv by lia. reflexivity.
Qed.
Lemma vec_fin l i : (i < length l)%nat -> vec (map Fin l) i = Fin (nth i l 0).
Proof. intros H. unfold vec. now rewrite (nth_map _ _ _ _ 0). Qed.
Lemma tab_fin n (v : nat -> XR) u : (forall i, (i < n)%nat -> v i = Fin (u i)) -> tab n v = map Fin (map u (seq 0 n)).
Proof.
  intros H. unfold tab. rewrite map_map. apply map_ext_in. intros i Hi. apply in_seq in Hi. apply H. lia.
Qed.
Lemma nth_seq_map (u : nat -> R) n i d : (i < n)%nat -> nth i (map u (seq 0 n)) d = u i.
Proof. intros Hi. rewrite (nth_map _ _ _ _ 0%nat) by now rewrite seq_length. now rewrite seq_nth. Qed.

(* ---- the regression matrix ---- *)
Lemma count_le_ascending x b k : ascending b -> (k < length b)%nat ->
  ((k < count_le x b)%nat <-> nth k b 0 <= x).
Proof.
  revert k. induction b as [|a b IH]; intros k Hb Hk; [simpl in Hk; lia|].
  assert (Hb' : ascending b).
  { intros i j Hij. apply (Hb (S i) (S j)). simpl. lia. }
  cbn [count_le]. destruct k as [|k].
  - simpl. destruct (Rle_dec a x) as [l|l]; [split; [auto|lia]|]. split; [|lra]. intros Hc. exfalso.
    apply l. assert (N : b <> []) by (intros ->; simpl in Hc; lia).
    assert (L0 : (0 < length b)%nat) by (destruct b; [congruence|simpl; lia]).
    assert (H0 : nth 0 b 0 <= x) by (apply (IH 0%nat); auto; lia).
    specialize (Hb 0%nat 1%nat ltac:(simpl; lia)). simpl in Hb. lra.
  - simpl in Hk. cbn [nth]. assert (A0 : a <= nth k b 0).
    { specialize (Hb 0%nat (S k) ltac:(simpl; lia)). simpl in Hb. exact Hb. }
    destruct (Rle_dec a x) as [l|l].
    + rewrite <- (IH k) by (auto; lia). lia.
    + split; [|lra]. intros Hc. exfalso. apply l.
      assert (nth k b 0 <= x) by (apply (IH k); auto; lia). lra.
Qed.

Lemma design_value b xs i c : ascending b -> ascending xs -> (i < length xs)%nat -> (c < S (length b))%nat ->
  design (map Fin b) (map Fin xs) i c = Fin (basis b c (nth i xs 0)).
Proof.
  intros Hb Hxs Hi Hc. unfold design. rewrite sorter_ascending by auto. destruct c as [|j]; [reflexivity|].
  rewrite (nth_map _ _ _ _ 0) by auto. set (x := nth i xs 0). rewrite vec_fin by auto. fold x.
  rewrite (vec_fin b j) by lia. unfold basis.
  assert (Cj := count_le_ascending x b j Hb ltac:(lia)).
  pose proof (count_le_bound x b) as CB.
  destruct (Z.eqb_spec (Z.of_nat (count_le x b) - 1) (Z.of_nat j)) as [E|E].
  - assert (Ej : count_le x b = S j) by lia. cbn [nsub nofZ XR_Num xsub]. f_equal.
    assert (nth j b 0 <= x) by (apply Cj; lia).
    destruct (Nat.ltb_spec (S j) (length b)) as [L|L].
    + assert (x < nth (S j) b 0).
      { destruct (Rle_dec (nth (S j) b 0) x) as [q|q]; [|lra].
        apply (count_le_ascending x b (S j) Hb L) in q. lia. }
      rewrite Rmin_left by lra. rewrite Rmax_right; lra.
    + rewrite Rmax_right; lra.
  - destruct (Z.ltb_spec (Z.of_nat j) (Z.of_nat (count_le x b) - 1)) as [L|L].
    + assert (L2 : (S j < length b)%nat) by lia. rewrite (proj2 (Nat.ltb_lt _ _) L2).
      rewrite (vec_fin b (S j)) by auto. cbn [nsub nofZ XR_Num xsub]. f_equal.
      assert (nth (S j) b 0 <= x) by (apply (count_le_ascending x b (S j) Hb L2); lia).
      specialize (Hb j (S j) ltac:(lia)). rewrite Rmin_right by lra. rewrite Rmax_right; lra.
    + assert (~ nth j b 0 <= x) by (intros Q; apply Cj in Q; lia).
      assert (Rmin x (nth (S j) b 0) <= x) by apply Rmin_l.
      cbn [nsub nofZ XR_Num xsub]. f_equal. destruct (Nat.ltb (S j) (length b)); rewrite Rmax_left; lra.
Qed.

(* ---- the fit ---- *)
Definition Fmat (b xs : list R) : rmat := fun i c => basis b c (nth i xs 0).

Lemma normal_matrix_normal b xs w :
  normal_matrix b xs w = normal (length xs) (Fmat b xs) (weight w).
Proof. reflexivity. Qed.

Lemma normal_plain b xs a c :
  mm (length xs) (tr (Fmat b xs)) (Fmat b xs) a c = normal (length xs) (Fmat b xs) delta a c.
Proof.
  unfold normal, mm. apply bsum_ext. intros j Hj. f_equal. unfold tr.
  symmetry. apply (bsum_delta_r (length xs) j (fun k => Fmat b xs k a) Hj).
Qed.

Section BrkPtFit.
  Variable det : nat -> (nat -> nat -> XR) -> XR.
  Variable solve : nat -> nat -> (nat -> nat -> XR) -> (nat -> nat -> XR) -> res (nat -> nat -> XR).
  Hypothesis Hdet : det_ok det.
  Hypothesis Hsolve : solve_ok solve.

  Lemma fit_mismatch (x_obvs y_obvs : list XR) w breaks : length x_obvs <> length y_obvs ->
    brk_pt_fit det solve x_obvs y_obvs w breaks = Ok (CZeroCol (length breaks + 2), y_obvs).
  Proof. intros H. unfold brk_pt_fit. rewrite (proj2 (Nat.eqb_neq _ _) H). reflexivity. Qed.

  Variables (x0 : R) (xr ys breaks : list R) (w : option rmat).
  Notation xs := (x0 :: xr).
  Notation b := (x0 :: breaks).
  Notation n := (length xs).
  Notation m := (length breaks + 2)%nat.
  Hypothesis Hlen : length xs = length ys.
  Hypothesis Hxs : ascending xs.
  Hypothesis Hb : ascending b.
  Notation call := (brk_pt_fit det solve (map Fin xs) (map Fin ys) (fweights w) (map Fin breaks)).

  Lemma design_fin : finmat n m (design (map Fin b) (map Fin xs)) (Fmat b xs).
  Proof. intros i c Hi Hc. apply design_value; auto. cbn [length]. lia. Qed.
  Lemma design_tr_fin : finmat m n (transp (design (map Fin b) (map Fin xs))) (tr (Fmat b xs)).
  Proof. intros i j Hi Hj. unfold transp, tr. apply design_fin; auto. Qed.

  Definition ls : nat -> nat -> XR :=
    match fweights w with
    | Some w => mmul n (mmul n (transp (design (map Fin b) (map Fin xs))) w) (design (map Fin b) (map Fin xs))
    | None => mmul n (transp (design (map Fin b) (map Fin xs))) (design (map Fin b) (map Fin xs))
    end.
  Lemma ls_fin : finmat m m ls (normal_matrix b xs w).
  Proof.
    unfold ls. destruct w as [w0|]; cbn [fweights option_map].
    - rewrite normal_matrix_normal. cbn [weight].
      apply (mmul_fin n m m); [|apply design_fin]. apply (mmul_fin n m n); [apply design_tr_fin|].
      intros i j _ _. reflexivity.
    - intros i j Hi Hj. rewrite (mmul_fin n m m _ _ (tr (Fmat b xs)) (Fmat b xs)); auto.
      + rewrite normal_plain. reflexivity.
      + apply design_tr_fin.
      + apply design_fin.
  Qed.

  Lemma sizes : S (length b) = m.
  Proof. cbn [length]. lia. Qed.

  Lemma call_unfold : call =
    if neqb (det m ls) (nofZ 0) then Ok (CZeroCol m, map Fin ys) else
      let* fit_param :=
        match fweights w with
        | Some w => let* s := solve m n ls (transp (design (map Fin b) (map Fin xs))) in
                    Ok (mvmul n (mmul n s w) (vec (map Fin ys)))
        | None => let* s := solve m 1 ls
                              (fun i _ => mvmul n (transp (design (map Fin b) (map Fin xs))) (vec (map Fin ys)) i) in
                  Ok (fun i => s i 0%nat)
        end in
      let fitted := mvmul m (design (map Fin b) (map Fin xs)) (vec (tab m fit_param)) in
      Ok (CVec (tab m fit_param), tab n (fun i => nsub (vec (map Fin ys) i) (fitted i))).
  Proof.
    unfold brk_pt_fit. rewrite !map_length. rewrite (proj2 (Nat.eqb_eq _ _) Hlen). cbn [negb map].
    unfold ls. destruct (fweights w); reflexivity.
  Qed.

  Lemma fit_singular : ~ determined b xs w -> call = Ok (CZeroCol m, map Fin ys).
  Proof.
    intros N. rewrite call_unfold. destruct (Hdet m ls _ ls_fin) as (d & -> & Hd).
    unfold determined in N. rewrite sizes in N.
    change (neqb (Fin d) (nofZ 0)) with (Reqb d 0). destruct (Reqb d 0) eqn:E; [reflexivity|].
    rb. exfalso. apply N, Hd. auto.
  Qed.

  Definition optimum (beta : rvec) : Prop :=
    forall a, (a < m)%nat ->
      mv m (normal_matrix b xs w) beta a = mv n (tr (Fmat b xs)) (mv n (weight w) (fun i => nth i ys 0)) a.

  Lemma fit_param_ok : determined b xs w -> exists beta, optimum beta /\
    call = Ok (CVec (map Fin (map beta (seq 0 m))), map Fin (residuals b xs ys (map beta (seq 0 m)))).
  Proof.
    intros D. rewrite call_unfold. destruct (Hdet m ls _ ls_fin) as (d & -> & Hd).
    unfold determined in D. rewrite sizes in D.
    change (neqb (Fin d) (nofZ 0)) with (Reqb d 0). destruct (Reqb d 0) eqn:E; rb; [exfalso; apply Hd in D; auto|].
    clear E d Hd.
    assert (P : exists p beta, (match fweights w with
        | Some w => let* s := solve m n ls (transp (design (map Fin b) (map Fin xs))) in
                    Ok (mvmul n (mmul n s w) (vec (map Fin ys)))
        | None => let* s := solve m 1 ls
                              (fun i _ => mvmul n (transp (design (map Fin b) (map Fin xs))) (vec (map Fin ys)) i) in
                  Ok (fun i => s i 0%nat)
        end) = Ok p /\ (forall i, (i < m)%nat -> p i = Fin (beta i)) /\ optimum beta).
    { assert (Hy : forall k, (k < n)%nat -> vec (map Fin ys) k = Fin (nth k ys 0)).
      { intros k Hk. apply vec_fin. congruence. }
      pose proof ls_fin as L. unfold optimum. destruct w as [w0|] eqn:Ew; cbn [fweights option_map weight].
      - destruct (Hsolve m n ls _ _ _ L design_tr_fin D) as (X & x & -> & FX & SX). cbn [bind].
        exists (mvmul n (mmul n X (fun i j => Fin (w0 i j))) (vec (map Fin ys))),
               (mv n (mm n x w0) (fun i => nth i ys 0)).
        split; [reflexivity|]. split.
        + intros i Hi. apply mvmul_fin; auto. intros k Hk. apply (mmul_fin n m n); auto. intros u v _ _. reflexivity.
        + intros a Ha.
          rewrite (mv_ext m _ (normal_matrix b xs (Some w0)) _ (mv n x (mv n w0 (fun i => nth i ys 0)))); auto.
          2:{ intros k _. apply mv_mm. }
          rewrite <- mv_mm. apply mv_ext; auto.
      - assert (FB : finmat m 1 (fun i _ => mvmul n (transp (design (map Fin b) (map Fin xs))) (vec (map Fin ys)) i)
                       (fun i _ => mv n (tr (Fmat b xs)) (fun i => nth i ys 0) i)).
        { intros i j Hi _. apply mvmul_fin; auto. intros k Hk. now apply design_tr_fin. }
        destruct (Hsolve m 1%nat ls _ _ _ L FB D) as (X & x & -> & FX & SX). cbn [bind].
        exists (fun i => X i 0%nat), (fun i => x i 0%nat). split; [reflexivity|]. split.
        + intros i Hi. apply FX; auto.
        + intros a Ha. etransitivity; [exact (SX a 0%nat Ha Nat.lt_0_1)|].
          apply mv_ext; auto. intros k Hk. unfold mv. now rewrite (bsum_delta n k (fun i => nth i ys 0) Hk). }
    destruct P as (p & beta & Ep & Fp & Op). exists beta. split; auto. rewrite Ep. cbn [bind].
    rewrite (tab_fin m p beta Fp). do 2 f_equal.
    unfold tab. transitivity (map Fin (map (fun i => nth i ys 0 - curve b (map beta (seq 0 m)) (nth i xs 0)) (seq 0 n))).
    - rewrite (map_map (fun i => nth i ys 0 - curve b (map beta (seq 0 m)) (nth i xs 0)) Fin). apply map_ext_in. intros i Hi. apply in_seq in Hi.
      rewrite vec_fin by (rewrite <- Hlen; lia).
      rewrite (mvmul_fin m _ (Fmat b xs) _ beta).
      + cbn [nsub XR_Num xsub]. do 2 f_equal. unfold mv, curve. rewrite sizes.
        apply bsum_ext. intros c Hc. rewrite nth_seq_map by auto. unfold Fmat. ring.
      + intros k Hk. apply design_fin; lia.
      + intros k Hk. rewrite vec_fin by (rewrite map_length, seq_length; auto). now rewrite nth_seq_map.
    - f_equal. unfold residuals. clear -Hlen. revert Hlen.
      assert (G : forall (g : R -> R) u v, length u = length v ->
        map (fun i => nth i v 0 - g (nth i u 0)) (seq 0 (length u)) = map (fun q => snd q - g (fst q)) (combine u v)).
      { intros g. induction u as [|a u IH]; intros [|c v] H; simpl in *; try lia; auto. f_equal.
        rewrite <- seq_shift, map_map. apply IH. lia. }
      intros Hlen. apply (G (curve b (map beta (seq 0 m))) xs ys Hlen).
  Qed.

  Lemma nth_residuals beta i : (i < n)%nat -> nth i (residuals b xs ys beta) 0
    = resid m (Fmat b xs) (fun i => nth i ys 0) (fun c => nth c beta 0) i.
  Proof.
    intros Hi. unfold residuals.
    rewrite (nth_map _ _ _ _ (0, 0)) by (rewrite combine_length; lia).
    rewrite combine_nth by auto. cbn [fst snd]. unfold resid, curve, mv, Fmat. f_equal.
    rewrite sizes. apply bsum_ext. intros; ring.
  Qed.
  Lemma residuals_length beta : length (residuals b xs ys beta) = n.
  Proof. unfold residuals. rewrite map_length, combine_length. lia. Qed.
  Lemma weighted_ss_wss beta : weighted_ss w (residuals b xs ys beta)
    = wss n m (Fmat b xs) (weight w) (fun i => nth i ys 0) (fun c => nth c beta 0).
  Proof.
    unfold weighted_ss, wss, qform. rewrite residuals_length. apply bsum_ext. intros i Hi.
    apply bsum_ext. intros j Hj. rewrite !nth_residuals by auto. reflexivity.
  Qed.

  Lemma weight_sym_psd : weights_ok n w -> sym n (weight w) /\ psd n (weight w).
  Proof. destruct w; simpl; auto. intros _. split; [apply sym_delta|apply psd_delta]. Qed.

  Theorem fit_optimum : weights_ok n w -> determined b xs w ->
    exists beta, call = Ok (CVec (map Fin beta), map Fin (residuals b xs ys beta)) /\ length beta = m /\
      forall beta', length beta' = m ->
        weighted_ss w (residuals b xs ys beta) <= weighted_ss w (residuals b xs ys beta') /\
        (weighted_ss w (residuals b xs ys beta') = weighted_ss w (residuals b xs ys beta) -> beta' = beta).
  Proof.
    intros Hw D. destruct (weight_sym_psd Hw) as [S P].
    destruct (fit_param_ok D) as (beta & O & E). exists (map beta (seq 0 m)). split; auto.
    rewrite map_length, seq_length. split; auto. intros beta' L. rewrite !weighted_ss_wss.
    assert (Ob : forall a, (a < m)%nat -> mv m (normal n (Fmat b xs) (weight w)) (fun c => nth c (map beta (seq 0 m)) 0) a
                 = mv n (tr (Fmat b xs)) (mv n (weight w) (fun i => nth i ys 0)) a).
    { intros a Ha. rewrite <- O by auto. apply mv_ext; auto. intros k Hk. now rewrite nth_seq_map. }
    split; [apply wss_min; auto|]. intros Q.
    apply (nth_ext _ _ 0 0); [rewrite map_length, seq_length; auto|]. intros c Hc. rewrite L in Hc.
    unfold determined in D. rewrite sizes in D.
    apply (wss_unique n m (Fmat b xs) (weight w) (fun i => nth i ys 0) S P _ Ob (fun c => nth c beta' 0) D Q c Hc).
  Qed.

  Theorem fit_exact beta : determined b xs w -> length beta = m ->
    (forall i, (i < n)%nat -> nth i ys 0 = curve b beta (nth i xs 0)) ->
    call = Ok (CVec (map Fin beta), map Fin (repeat 0 n)).
  Proof.
    intros D L Hy. destruct (fit_param_ok D) as (beta0 & O & E). rewrite E. clear E.
    assert (Eb : map beta0 (seq 0 m) = beta).
    { apply (nth_ext _ _ 0 0); [rewrite map_length, seq_length; auto|]. intros c Hc.
      rewrite map_length, seq_length in Hc. rewrite nth_seq_map by auto.
      unfold determined in D. rewrite sizes in D.
      assert (Z : beta0 c - nth c beta 0 = 0); [|lra].
      apply (D (fun c => beta0 c - nth c beta 0)); auto. intros a Ha. rewrite mv_minus, O by auto.
      rewrite normal_matrix_normal, normal_mv. apply Rminus_diag_eq.
      apply mv_ext; auto. intros k Hk. apply mv_ext; auto. intros j Hj. rewrite Hy by auto.
      unfold curve, mv, Fmat. rewrite sizes. apply bsum_ext. intros; ring. }
    rewrite Eb. do 3 f_equal. apply (nth_ext _ _ 0 0).
    - now rewrite residuals_length, repeat_length.
    - intros i Hi. rewrite residuals_length in Hi. rewrite nth_residuals, nth_repeat by auto.
      unfold resid. rewrite Hy by auto. apply Rminus_diag_eq. unfold curve, mv, Fmat. rewrite sizes.
      apply bsum_ext. intros; ring.
  Qed.
End BrkPtFit.
