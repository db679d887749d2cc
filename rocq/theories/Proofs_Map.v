(* Proofs about map_data_grid *)
From Coq Require Import ZArith List Bool Reals Lra Lia Permutation.
From Verif Require Import Num Np NumFacts Stats Wrangling LinR LeastSq Spec_Stats Spec_FitCond Spec_Map Proofs_Stats2 Proofs_Fit.
Import ListNotations.
Local Open Scope R_scope.

(* ---- linear algebra ---- *)
Section Blue.
  Variables (n : nat) (A B : rmat) (g : rvec) (sv : R).
  Hypothesis Hsym : sym n A.
  Hypothesis Hpd : posdef n A.
  Hypothesis Hinv : is_inverse n A B.
  Hypothesis Hn : (0 < n)%nat.

  Definition S_ : R := bsum n (fun j => bsum n (fun i => B i j)).
  Definition u_ : rvec := fun k => bsum n (fun l => g l * B l k).
  Definition b1_ : rvec := fun k => bsum n (fun i => B i k).
  Definition lam_ : R := (1 - bsum n u_) / S_.
  Definition w_ : rvec := fun k => u_ k + lam_ * b1_ k.
  Definition mse (w : rvec) : R :=
    sv - 2 * bsum n (fun i => w i * g i) + qform n A w.

  Lemma S_pos : 0 < S_.
  Proof.
    assert (P := posdef_inverse n A B Hpd Hinv (fun _ => 1)).
    assert (Q : 0 < qform n B (fun _ => 1)) by (apply P; exists 0%nat; split; auto; lra).
    unfold qform in Q. unfold S_. rewrite bsum_swap. erewrite bsum_ext; [exact Q|].
    intros i Hi. apply bsum_ext. intros; lra.
  Qed.
  Lemma B_sym : sym n B.
  Proof. exact (inverse_sym n A B Hsym Hinv). Qed.

  Lemma w_unbiased : bsum n w_ = 1.
  Proof.
    unfold w_. rewrite bsum_plus, bsum_scal.
    replace (bsum n b1_) with S_ by (unfold S_, b1_; reflexivity).
    unfold lam_. pose proof S_pos. field. lra.
  Qed.

  Lemma value_eq (s : rvec) m : m = bsum n (fun i => bsum n (fun k => B i k * s k)) / S_ ->
    bsum n (fun k => g k * bsum n (fun j => B k j * (s j - m))) + m = bsum n (fun k => w_ k * s k).
  Proof.
    intros Hm.
    rewrite (bsum_ext n _ (fun k => bsum n (fun j => g k * B k j * (s j - m)))).
    2:{ intros k Hk. rewrite <- bsum_scal. apply bsum_ext. intros; lra. }
    rewrite bsum_swap.
    rewrite (bsum_ext n _ (fun j => u_ j * s j - m * u_ j)).
    2:{ intros j Hj. unfold u_. rewrite bsum_scal_r. lra. }
    rewrite bsum_minus, bsum_scal.
    unfold w_. rewrite (bsum_ext n (fun k => (u_ k + lam_ * b1_ k) * s k) (fun k => u_ k * s k + lam_ * (b1_ k * s k))) by (intros; lra).
    rewrite bsum_plus, bsum_scal.
    assert (E : bsum n (fun k => b1_ k * s k) = m * S_).
    { rewrite Hm. pose proof S_pos. rewrite bsum_swap. field_simplify; [|lra].
      apply bsum_ext. intros k Hk. unfold b1_. now rewrite bsum_scal_r. }
    rewrite E. unfold lam_. pose proof S_pos. field. lra.
  Qed.

  Lemma A_w i : (i < n)%nat -> mv n A w_ i = g i + lam_.
  Proof.
    intros Hi. destruct Hinv as [R L]. unfold mv, w_.
    rewrite (bsum_ext n _ (fun k => bsum n (fun l => g l * (B l k * A k i)) + lam_ * bsum n (fun l => B l k * A k i))).
    2:{ intros k Hk. rewrite (Hsym i k) by auto. unfold u_, b1_.
        rewrite Rmult_plus_distr_l. f_equal.
        - rewrite Rmult_comm, <- bsum_scal_r. apply bsum_ext; intros; lra.
        - rewrite <- (Rmult_comm _ (A k i)), Rmult_assoc, <- bsum_scal_r. reflexivity. }
    rewrite bsum_plus, bsum_scal.
    rewrite (bsum_swap n n (fun k l => g l * (B l k * A k i))), (bsum_swap n n (fun k l => B l k * A k i)).
    f_equal.
    - rewrite (bsum_ext n _ (fun l => g l * delta l i)).
      + now rewrite bsum_delta_r.
      + intros l Hl. rewrite bsum_scal. rewrite <- (L l i) by auto. reflexivity.
    - rewrite (bsum_ext n _ (fun l => 1 * delta l i)).
      + rewrite bsum_delta_r by auto. lra.
      + intros l Hl. rewrite <- (L l i) by auto. unfold mm. lra.
  Qed.

  Lemma error_eq :
    sv - bsum n (fun k => u_ k * g k) + (1 - bsum n u_) ^ 2 / S_ = mse w_.
  Proof.
    unfold mse. rewrite qform_mv.
    rewrite (bsum_ext n (fun i => w_ i * mv n A w_ i) (fun i => w_ i * g i + lam_ * w_ i)).
    2:{ intros i Hi. rewrite A_w by auto. ring. }
    rewrite bsum_plus, bsum_scal, w_unbiased.
    assert (E : bsum n (fun i => w_ i * g i) = bsum n (fun k => u_ k * g k) + lam_ * bsum n u_).
    { unfold w_. rewrite (bsum_ext n _ (fun k => u_ k * g k + lam_ * (b1_ k * g k))) by (intros; lra).
      rewrite bsum_plus, bsum_scal. do 2 f_equal. unfold u_. rewrite bsum_swap. apply bsum_ext. intros k Hk.
      unfold b1_. rewrite <- bsum_scal_r. apply bsum_ext. intros l Hl.
      rewrite (B_sym l k) by auto. ring. }
    rewrite E. unfold lam_. pose proof S_pos. field. lra.
  Qed.

  Lemma mse_split w' : bsum n w' = 1 -> mse w' = mse w_ + qform n A (fun i => w' i - w_ i).
  Proof.
    intros Hw. unfold mse. 
    assert (E : qform n A w' = qform n A w_ + 2 * bsum n (fun i => (w' i - w_ i) * mv n A w_ i) + qform n A (fun i => w' i - w_ i)).
    { assert (L := qform_line n A w_ (fun i => w' i - w_ i) 1 Hsym).
      unfold dot in L.
      replace (qform n A w') with (qform n A (fun i => w_ i + 1 * (w' i - w_ i))).
      - rewrite L. ring.
      - unfold qform. apply bsum_ext; intros; apply bsum_ext; intros. f_equal. lra. }
    rewrite E.
    rewrite (bsum_ext n (fun i => (w' i - w_ i) * mv n A w_ i) (fun i => (w' i * g i - w_ i * g i) + lam_ * (w' i - w_ i))).
    2:{ intros i Hi. rewrite A_w by auto. ring. }
    rewrite bsum_plus, bsum_scal, !bsum_minus, Hw, w_unbiased. lra.
  Qed.
End Blue.

Lemma psd_inj_posdef n a : sym n a -> psd n a -> inj n a -> posdef n a.
Proof.
  intros S P I x (i & Hi & Hx). destruct (Rle_lt_or_eq_dec 0 (qform n a x) (P x)) as [L|E]; auto.
  exfalso. apply Hx. apply I; auto. intros k Hk. apply (psd_null n a x S P); auto.
Qed.

Lemma n_pos (l : list (point R)) : l <> [] -> (0 < length l)%nat.
Proof. destruct l; [congruence|simpl; lia]. Qed.

Section Optimal.
  Variable s : scales.
  Variables sv nv : R.
  Variable data : list (point R).
  Hypothesis Hs : scales_nonzero s.
  Hypothesis Hz : has_depth s data.
  Hypothesis Hne : data <> [].
  Hypothesis Hsv : 0 <= sv.
  Hypothesis Hnv : 0 <= nv.
  Notation n := (length data).
  Notation A := (covariances s sv nv data).

  Lemma corr_sym p q : correlation s p q = correlation s q p.
  Proof. unfold correlation. now rewrite separation_sym. Qed.
  Lemma corr_self p : correlation s p p = 1.
  Proof. unfold correlation. now rewrite separation_self, Ropp_0, exp_0. Qed.
  Lemma cov_sym : sym n A.
  Proof. intros i j Hi Hj. unfold covariances. now rewrite corr_sym, delta_sym. Qed.
  Lemma bsum_sq_nonneg m x : 0 <= bsum m (fun i => x i ^ 2).
  Proof. apply bsum_nonneg. intros; apply pow2_ge_0. Qed.
  Lemma cov_qform x : qform n A x =
    sv * bsum n (fun i => bsum n (fun j => x i * x j * correlation s (cast data i) (cast data j)))
    + nv * bsum n (fun i => x i ^ 2).
  Proof.
    unfold qform, covariances. rewrite <- !bsum_scal, <- bsum_plus. apply bsum_ext. intros i Hi.
    rewrite (bsum_ext n _ (fun j => sv * (x i * x j * correlation s (cast data i) (cast data j)) + nv * x i * (delta i j * x j)))
      by (intros; ring).
    rewrite bsum_plus, (bsum_scal n sv), (bsum_scal n (nv * x i)), bsum_delta by auto. ring.
  Qed.
  Lemma cov_psd : psd n A.
  Proof.
    intros x. rewrite cov_qform. pose proof (covariance_psd_R s data x Hs Hz) as P.
    pose proof (bsum_sq_nonneg n x).
    apply Rplus_le_le_0_compat; apply Rmult_le_pos; auto.
  Qed.
  Lemma noise_regular : 0 < nv -> regular s sv nv data.
  Proof.
    intros Hp. apply posdef_inj. unfold covariances.
    apply (psd_plus_diag n (fun i j => correlation s (cast data i) (cast data j))); auto.
    intros x. exact (covariance_psd_R s data x Hs Hz).
  Qed.

  (* the expected squared error is one *)
  Lemma mse_nonneg g w : has_depth s (g :: data) -> 0 <= mean_square_error s sv nv data g w.
  Proof.
    intros Hg. pose proof (covariance_psd_R s (g :: data) (vcons 1 (fun i => - w i)) Hs Hg) as P.
    cbn [length] in P. rewrite bsum_S in P. rewrite !bsum_S in P.
    rewrite (bsum_ext n (fun i => bsum (S n) _) (fun i => - w i * correlation s (cast data i) g +
        bsum n (fun j => w i * w j * correlation s (cast data i) (cast data j)))) in P.
    2:{ intros i Hi. rewrite bsum_S. cbn [vcons nth]. f_equal; [unfold correlation, cast; ring|].
        apply bsum_ext. intros j Hj. unfold correlation, cast. ring. }
    cbn [vcons nth] in P. rewrite bsum_plus in P.
    rewrite (bsum_ext n (fun i => 1 * - w i * exp (- separation2 s g (nth i data dpointR))) (fun i => - w i * correlation s (cast data i) g)) in P.
    2:{ intros i Hi. fold (cast data i). fold (correlation s g (cast data i)). rewrite corr_sym. ring. }
    rewrite separation_self, Ropp_0, exp_0 in P.
    unfold mean_square_error. fold (qform n A w). rewrite cov_qform.
    pose proof (bsum_sq_nonneg n w) as Q.
    rewrite (bsum_ext n _ (fun i => - sv * (- w i * correlation s (cast data i) g))) by (intros; ring).
    rewrite bsum_scal.
    set (a := bsum n (fun i => - w i * correlation s (cast data i) g)) in *.
    set (b := bsum n (fun i => bsum n _)) in *.
    assert (0 <= sv * (1 + 2 * a + b)) by (apply Rmult_le_pos; auto; lra).
    assert (0 <= nv * bsum n (fun i => w i ^ 2)) by (apply Rmult_le_pos; auto). lra.
  Qed.
End Optimal.

Lemma depth_tail s g data : has_depth s (g :: data) -> has_depth s data.
Proof. intros H E p Hp. apply (H E). simpl; auto. Qed.
Lemma depth_head s g data : has_depth s (g :: data) -> has_depth s [g].
Proof. intros H E p [<-|[]]. apply (H E). simpl; auto. Qed.

Section Value.
  Variable inv : nat -> (nat -> nat -> XR) -> res (nat -> nat -> XR).
  Hypothesis Hinv : inv_ok inv.
  Variable s : scales.
  Variables sv nv : R.
  Variable g : point R.
  Variable data : list (point R).
  Hypothesis Hm : mappable s sv nv g data.
  Hypothesis Hr : regular s sv nv data.
  Notation n := (length data).
  Notation A := (covariances s sv nv data).

  Definition towards (p : point R) : rvec := fun i => sv * correlation s (cast data i) p.
  Lemma mse_eq p w : mse n A (towards p) sv w = mean_square_error s sv nv data p w.
  Proof. reflexivity. Qed.

  Lemma best_w B p : is_inverse n A B -> best_weights s sv nv data p (w_ n B (towards p)).
  Proof.
    intros HB. destruct Hm as (Hs & Hz & Hne & Hsv & Hnv). apply depth_tail in Hz.
    assert (Sy : sym n A) by apply cov_sym.
    assert (Pd : posdef n A) by (apply psd_inj_posdef; auto; now apply cov_psd).
    assert (Hn := n_pos data Hne).
    split; [now apply (w_unbiased n A)|].
    intros w' U. rewrite <- !mse_eq.
    rewrite (mse_split n A B (towards p) sv Sy Pd HB Hn w' U).
    assert (P := cov_psd s sv nv data Hs Hz Hsv Hnv (fun i => w' i - w_ n B (towards p) i)).
    split; [lra|]. intros E.
    destruct (all_zero_or n (fun i => w' i - w_ n B (towards p) i)) as [Z|Z].
    - intros i Hi. specialize (Z i Hi). lra.
    - apply Pd in Z. lra.
  Qed.

  Lemma map_value : exists w ws,
    best_weights s sv nv data g w /\
    (forall i, (i < n)%nat -> best_weights s sv nv data (cast data i) (ws i)) /\
    forall sal, length sal = n ->
      mapped inv s sv nv sal g data =
      Ok (Fin (estimate w sal), Fin (sqrt (mean_square_error s sv nv data g w)),
          map Fin (map (fun i => estimate (ws i) sal) (seq 0 n)),
          map Fin (map (fun i => sqrt (mean_square_error s sv nv data (cast data i) (ws i))) (seq 0 n))).
  Proof.
    destruct Hm as (Hs & Hz & Hne & Hsv & Hnv).
    assert (Hz' := depth_tail _ _ _ Hz). assert (Hg := depth_head _ _ _ Hz).
    assert (Sy : sym n A) by apply cov_sym.
    assert (Pd : posdef n A) by (apply psd_inj_posdef; auto; now apply cov_psd).
    assert (Hn := n_pos data Hne).
    destruct (covariance_entry s data data Hs Hz' Hz') as (K & EK & HK); try (intros _; auto; fail).
    destruct (covariance_entry s data [g] Hs Hz' Hg) as (G & EG & HG); try (intros _; congruence).
    set (M := fun i j => nadd (nmul (Fin sv) (K i j)) (nmul (Fin nv) (if Nat.eqb i j then nofZ 1 else nofZ 0))).
    assert (FM : finmat n n M A).
    { intros i j Hi Hj. unfold M. rewrite HK by auto. unfold covariances, delta, correlation, cast.
      destruct (Nat.eqb i j); reflexivity. }
    destruct (Hinv n M A FM Hr) as (IB & B & EB & FB & HB).
    exists (w_ n B (towards g)), (fun i => w_ n B (towards (cast data i))).
    split; [now apply best_w|]. split; [intros i _; now apply best_w|].
    intros sal Hsal. unfold mapped, map_data_grid.
    unfold covariance in EK, EG. rewrite EK. cbn [bind]. rewrite !map_length. fold M. rewrite EB. cbn [bind].
    destruct (Nat.eqb_spec n 0) as [Z|_]; [lia|].
    destruct (Nat.eqb_spec (length sal) n) as [_|N]; [|congruence]. cbn [negb].
    change [fpoint g] with (map fpoint [g]). rewrite EG. cbn [bind]. cbn [map length Nat.eqb].
    assert (SB : nsum (map (fun j => nsum (map (fun i => IB i j) (seq 0 n))) (seq 0 n)) = Fin (S_ n B)).
    { rewrite (map_ext_in _ (fun j => Fin (bsum n (fun i => B i j)))).
      - rewrite <- (map_map (fun j => bsum n (fun i => B i j)) Fin), nsum_fin. reflexivity.
      - intros j Hj. apply in_seq in Hj. rewrite (map_ext_in _ (fun i => Fin (B i j))).
        + rewrite <- (map_map (fun i => B i j) Fin), nsum_fin. reflexivity.
        + intros i Hi. apply in_seq in Hi. apply FB; lia. }
    rewrite SB.
    assert (SP := S_pos n A B Pd HB Hn).
    set (m := bsum n (fun i => bsum n (fun k => B i k * nth k sal 0)) / S_ n B).
    assert (MF : ndiv (nsum (map (mvmul n IB (vec (map Fin sal))) (seq 0 n))) (Fin (S_ n B)) = Fin m).
    { rewrite (map_ext_in _ (fun i => Fin (mv n B (fun k => nth k sal 0) i))).
      - rewrite <- (map_map (mv n B (fun k => nth k sal 0)) Fin), nsum_fin. rewrite ndiv_fin by lra. reflexivity.
      - intros i Hi. apply in_seq in Hi. apply mvmul_fin.
        + intros k Hk. apply FB; lia.
        + intros k Hk. apply vec_fin. lia. }
    rewrite MF.
    assert (WT : forall k, (k < n)%nat -> mvmul n IB (fun i => nsub (vec (map Fin sal) i) (Fin m)) k
                 = Fin (mv n B (fun j => nth j sal 0 - m) k)).
    { intros k Hk. apply mvmul_fin; [intros l Hl; apply FB; auto|]. intros j Hj. rewrite vec_fin by lia. reflexivity. }
    assert (VAL : forall (c : nat -> nat -> XR) i p, (forall k, (k < n)%nat -> c i k = Fin (towards p k)) ->
      nadd (mvmul n c (mvmul n IB (fun i => nsub (vec (map Fin sal) i) (Fin m))) i) (Fin m)
      = Fin (estimate (w_ n B (towards p)) sal)).
    { intros c i p Hc. rewrite (mvmul_fin n c (fun _ => towards p) _ (mv n B (fun j => nth j sal 0 - m))); auto.
      cbn. f_equal. unfold estimate. rewrite Hsal.
      exact (value_eq n A B (towards p) Pd HB Hn (fun k => nth k sal 0) m eq_refl). }
    assert (ERR : forall (c : nat -> nat -> XR) i p, has_depth s (p :: data) -> (forall k, (k < n)%nat -> c i k = Fin (towards p k)) ->
      nsqrt (nadd (nsub (Fin sv) (mmul n (mmul n c IB) (transp c) i i))
        (ndiv (nsq (nsub (nofZ 1) (nsum (map (mmul n c IB i) (seq 0 n))))) (Fin (S_ n B))))
      = Fin (sqrt (mean_square_error s sv nv data p (w_ n B (towards p))))).
    { intros c i p Hp Hc.
      assert (U : forall k, (k < n)%nat -> mmul n c IB i k = Fin (u_ n B (towards p) k)).
      { intros k Hk. unfold mmul. rewrite (map_ext_in _ (fun l => Fin (towards p l * B l k))).
        - rewrite <- (map_map (fun l => towards p l * B l k) Fin), nsum_fin. reflexivity.
        - intros l Hl. apply in_seq in Hl. rewrite Hc, FB by lia. reflexivity. }
      assert (D : mmul n (mmul n c IB) (transp c) i i = Fin (bsum n (fun k => u_ n B (towards p) k * towards p k))).
      { unfold mmul at 1. rewrite (map_ext_in _ (fun k => Fin (u_ n B (towards p) k * towards p k))).
        - rewrite <- (map_map (fun k => u_ n B (towards p) k * towards p k) Fin), nsum_fin. reflexivity.
        - intros k Hk. apply in_seq in Hk. rewrite U by lia. unfold transp. rewrite Hc by lia. reflexivity. }
      rewrite D. rewrite (map_ext_in _ (fun k => Fin (u_ n B (towards p) k))).
      2:{ intros k Hk. apply in_seq in Hk. apply U. lia. }
      rewrite <- (map_map (u_ n B (towards p)) Fin), nsum_fin.
      fold (bsum n (u_ n B (towards p))). 
      replace (nsq (nsub (nofZ 1) (Fin (bsum n (u_ n B (towards p)))))) with (Fin ((1 - bsum n (u_ n B (towards p))) ^ 2)).
      2:{ cbn. f_equal. ring. }
      rewrite ndiv_fin by lra.
      change (nadd (nsub (Fin sv) (Fin ?a)) (Fin ?b)) with (Fin (sv - a + b)).
      rewrite (error_eq n A B (towards p) sv Sy Pd HB Hn), mse_eq.
      apply xsqrt_fin. now apply mse_nonneg. }
    assert (C0 : forall k, (k < n)%nat -> transp (fun i j => nmul (Fin sv) (G i j)) 0 k = Fin (towards g k)).
    { intros k Hk. unfold transp. rewrite HG by (simpl; lia). reflexivity. }
    assert (C1 : forall i k, (i < n)%nat -> (k < n)%nat -> nmul (Fin sv) (K i k) = Fin (towards (cast data i) k)).
    { intros i k Hi Hk. rewrite HK by auto. unfold towards. rewrite corr_sym. reflexivity. }
    rewrite (VAL _ 0%nat g C0), (ERR _ 0%nat g Hz C0).
    f_equal. f_equal; [f_equal|].
    - apply tab_fin. intros i Hi. apply (VAL (fun i j => nmul (Fin sv) (K i j))). intros k Hk. now apply C1.
    - apply tab_fin. intros i Hi. apply (ERR (fun i j => nmul (Fin sv) (K i j))).
      + intros E p [<-|Hp]; apply (Hz' E); auto. apply nth_In. auto.
      + intros k Hk. now apply C1.
  Qed.
End Value.
