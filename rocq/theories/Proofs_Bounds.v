(* Proofs of C147: how large and how small the error of a mapped level can be, and how far the mapped
   salinity can be from the mean of the casts *)
From Coq Require Import ZArith List Bool Reals Lra Lia.
From Verif Require Import Num Np NumFacts Stats Wrangling LinR LeastSq Spec_Finders Spec_Stats Spec_FitCond Spec_Map Helper Spec_Helper
  MapProfile Spec_MapLevel Proofs_Stats1 Proofs_Stats2 Proofs_Fit Proofs_Map Proofs_Map2 Proofs_MapLevel.
Import ListNotations.
Local Open Scope R_scope.

Lemma rsum_nth (f : R -> R) l : fold_right Rplus 0 (map f l) = bsum (length l) (fun i => f (nth i l 0)).
Proof.
  change (fold_right Rplus 0) with rsum. unfold bsum. f_equal.
  rewrite <- (map_nth_seq l 0) at 1. now rewrite map_map.
Qed.
Lemma mean_bsum l : mean_of l = bsum (length l) (fun i => nth i l 0) / INR (length l).
Proof. unfold mean_of. rewrite <- (map_id l) at 1. now rewrite (rsum_nth (fun x => x)). Qed.
Lemma var_bsum l : pop_var l = bsum (length l) (fun i => (nth i l 0 - mean_of l) ^ 2) / INR (length l).
Proof. unfold pop_var, mean_of at 1. now rewrite rsum_nth, map_length. Qed.
Lemma var_sum l : l <> [] -> bsum (length l) (fun i => (nth i l 0 - mean_of l) ^ 2) = INR (length l) * pop_var l.
Proof.
  intros H. rewrite var_bsum. assert (0 < INR (length l)) by (apply lt_0_INR; destruct l; [congruence|cbn; lia]). field. lra.
Qed.
Lemma mean_sum l : l <> [] -> bsum (length l) (fun i => nth i l 0) = INR (length l) * mean_of l.
Proof.
  intros H. rewrite mean_bsum. assert (0 < INR (length l)) by (apply lt_0_INR; destruct l; [congruence|cbn; lia]). field. lra.
Qed.

(* Cauchy and Schwarz *)
Lemma bsum_cs n a b : (bsum n (fun i => a i * b i)) ^ 2 <= bsum n (fun i => a i ^ 2) * bsum n (fun i => b i ^ 2).
Proof.
  set (x := bsum n (fun i => a i ^ 2)). set (y := bsum n (fun i => a i * b i)). set (z := bsum n (fun i => b i ^ 2)).
  assert (Q : forall t, 0 <= x * t ^ 2 + 2 * t * y + z).
  { intros t. assert (P : 0 <= bsum n (fun i => (t * a i + b i) ^ 2)) by (apply bsum_nonneg; intros; apply pow2_ge_0).
    rewrite (bsum_ext n _ (fun i => t ^ 2 * a i ^ 2 + (2 * t * (a i * b i) + b i ^ 2))) in P by (intros; ring).
    rewrite !bsum_plus, !bsum_scal in P. fold x y z in P. lra. }
  assert (X : 0 <= x) by (apply bsum_nonneg; intros; apply pow2_ge_0).
  destruct (Req_dec x 0) as [E|N].
  - rewrite E in *. destruct (Req_dec y 0) as [E'|N']; [rewrite E'; lra|].
    pose proof (Q (- (z + 1) / (2 * y))) as P. replace (0 * (- (z + 1) / (2 * y)) ^ 2 + 2 * (- (z + 1) / (2 * y)) * y + z) with (-1) in P by (field; lra). lra.
  - assert (0 < x) by lra. pose proof (Q (- y / x)) as P.
    replace (x * (- y / x) ^ 2 + 2 * (- y / x) * y + z) with ((x * z - y ^ 2) / x) in P by (field; lra).
    assert (0 <= (x * z - y ^ 2) / x * x) by (apply Rmult_le_pos; lra). unfold Rdiv in H0. rewrite Rmult_assoc, Rinv_l in H0 by lra. lra.
Qed.

Section Bound.
  Variable s : scales.
  Variables sv nv : R.
  Variable g : point R.
  Variable data : list (point R).
  Hypothesis Hm : mappable s sv nv g data.
  Notation n := (length data).
  Notation A := (covariances s sv nv data).

  Lemma size_pos : 0 < INR n.
  Proof. destruct Hm as (_ & _ & H & _). apply lt_0_INR. now apply n_pos. Qed.

  (* the noise part of the expected error *)
  Lemma mse_noise w : mean_square_error s sv nv data g w = mean_square_error s sv 0 data g w + nv * bsum n (fun i => w i ^ 2).
  Proof.
    unfold mean_square_error. fold (qform n A w). fold (qform n (covariances s sv 0 data) w). rewrite !cov_qform. ring.
  Qed.
  Lemma mse_at_least w : nv * bsum n (fun i => w i ^ 2) <= mean_square_error s sv nv data g w.
  Proof.
    destruct Hm as (Hs & Hz & Hne & Hsv & Hnv). rewrite mse_noise.
    pose proof (mse_nonneg s sv 0 data Hs Hsv (Rle_refl 0) g w Hz). lra.
  Qed.
  Lemma squares_spread w : unbiased n w -> bsum n (fun i => w i ^ 2) = bsum n (fun i => (w i - / INR n) ^ 2) + / INR n.
  Proof.
    intros U. pose proof size_pos as P.
    rewrite (bsum_ext n (fun i => (w i - / INR n) ^ 2) (fun i => w i ^ 2 + (- (2 * / INR n) * w i + (/ INR n) ^ 2))) by (intros; ring).
    rewrite !bsum_plus, bsum_scal, U, bsum_const. field. lra.
  Qed.
  Lemma squares_at_least w : unbiased n w -> / INR n <= bsum n (fun i => w i ^ 2).
  Proof. intros U. rewrite (squares_spread w U). pose proof (bsum_nonneg n (fun i => (w i - / INR n) ^ 2) (fun i _ => pow2_ge_0 _)). lra. Qed.

  Lemma corr_range p q : 0 < correlation s p q <= 1.
  Proof.
    unfold correlation. split; [apply exp_pos|]. rewrite <- exp_0.
    assert (E : - separation2 s p q <= 0) by (pose proof (separation_nonneg s p q); lra).
    destruct E as [E|E]; [left; now apply exp_increasing|rewrite E; apply Rle_refl].
  Qed.
  (* the plain mean of the casts *)
  Lemma mse_mean : mean_square_error s sv nv data g (fun _ => / INR n) <= 2 * sv + nv / INR n.
  Proof.
    destruct Hm as (Hs & Hz & Hne & Hsv & Hnv). pose proof size_pos as P.
    unfold mean_square_error. fold (qform n A (fun _ => / INR n)). rewrite cov_qform.
    assert (X : 0 <= bsum n (fun i => / INR n * (sv * correlation s (cast data i) g))).
    { apply bsum_nonneg. intros i Hi. pose proof (corr_range (cast data i) g). apply Rmult_le_pos; [left; now apply Rinv_0_lt_compat|]. apply Rmult_le_pos; lra. }
    assert (Y : bsum n (fun i => bsum n (fun j => / INR n * / INR n * correlation s (cast data i) (cast data j))) <= 1).
    { apply Rle_trans with (bsum n (fun i => bsum n (fun j => / INR n * / INR n * 1))).
      - apply bsum_le. intros i Hi. apply bsum_le. intros j Hj. apply Rmult_le_compat_l; [|apply corr_range].
        apply Rmult_le_pos; left; now apply Rinv_0_lt_compat.
      - rewrite !bsum_const. right. field. lra. }
    assert (Z : bsum n (fun i => (/ INR n) ^ 2) = / INR n) by (rewrite bsum_const; field; lra). rewrite Z.
    assert (sv * bsum n (fun i => bsum n (fun j => / INR n * / INR n * correlation s (cast data i) (cast data j))) <= sv * 1) by (apply Rmult_le_compat_l; auto).
    unfold Rdiv. lra.
  Qed.

  Variable w : nat -> R.
  Hypothesis Hw : best_weights s sv nv data g w.
  Lemma best_range : nv / INR n <= mean_square_error s sv nv data g w <= 2 * sv + nv / INR n.
  Proof.
    destruct Hw as [U O]. pose proof size_pos as P. destruct Hm as (_ & _ & _ & _ & Hnv). split.
    - apply Rle_trans with (nv * bsum n (fun i => w i ^ 2)); [|apply mse_at_least].
      unfold Rdiv. apply Rmult_le_compat_l; auto. now apply squares_at_least.
    - apply Rle_trans with (mean_square_error s sv nv data g (fun _ => / INR n)); [|apply mse_mean].
      apply O. unfold unbiased. rewrite bsum_const. field. lra.
  Qed.
  (* how far the estimate is from the mean *)
  Lemma estimate_off sal : length sal = n -> nv * (estimate w sal - mean_of sal) ^ 2 <= 2 * sv * (INR n * pop_var sal).
  Proof.
    intros L. destruct Hw as [U O]. pose proof size_pos as P. pose proof best_range as B. pose proof (mse_at_least w) as M.
    rewrite (squares_spread w U) in M. destruct Hm as (_ & _ & Hne & _ & Hnv).
    assert (N : sal <> []) by (intros C; rewrite C in L; destruct data; [congruence|discriminate]).
    assert (ME : bsum n (fun i => nth i sal 0) = INR n * mean_of sal) by (rewrite <- L; now apply mean_sum).
    assert (VE : bsum n (fun i => (nth i sal 0 - mean_of sal) ^ 2) = INR n * pop_var sal) by (rewrite <- L; now apply var_sum).
    assert (E : estimate w sal - mean_of sal = bsum n (fun i => (w i - / INR n) * (nth i sal 0 - mean_of sal))).
    { rewrite (bsum_ext n _ (fun i => w i * nth i sal 0 + (- mean_of sal * w i + (- / INR n * nth i sal 0 + / INR n * mean_of sal)))) by (intros; ring).
      rewrite !bsum_plus, !bsum_scal, U, bsum_const. rewrite ME. unfold estimate. rewrite L. field. lra. }
    rewrite E. pose proof (bsum_cs n (fun i => w i - / INR n) (fun i => nth i sal 0 - mean_of sal)) as C.
    cbv beta in C. rewrite VE in C.
    set (x := bsum n (fun i => (w i - / INR n) * (nth i sal 0 - mean_of sal))) in *. set (y := bsum n (fun i => (w i - / INR n) ^ 2)) in *.
    assert (F : nv * y <= 2 * sv) by (unfold Rdiv in B; lra).
    assert (V : 0 <= INR n * pop_var sal) by (apply Rmult_le_pos; [lra|apply pop_var_nonneg]).
    apply Rle_trans with (nv * (y * (INR n * pop_var sal))); [apply Rmult_le_compat_l; auto|].
    rewrite <- Rmult_assoc. now apply Rmult_le_compat_r.
  Qed.
End Bound.

(* ---- what the first stage leaves ---- *)
Lemma residual_small s sv nv g data sal res : mappable s sv nv g data -> 0 < nv -> length sal = length data ->
  residual_of s sv nv data sal res -> mean_of res = 0 /\ pop_var res <= pop_var sal.
Proof.
  intros Hm Hp L [LR HR]. pose proof (size_pos s sv nv g data Hm) as P. assert (Hm' := Hm).
  destruct Hm as (Hs & Hz & Hne & Hsv & Hnv). set (n := length data) in *. apply depth_tail in Hz.
  assert (Rg : regular s sv nv data) by (now apply noise_regular).
  set (M := covariances s sv nv data).
  assert (Sy : sym n M) by apply cov_sym.
  assert (Pd : posdef n M) by (apply psd_inj_posdef; auto; now apply cov_psd).
  assert (Hn := n_pos data Hne). destruct (inj_invertible n M Rg) as (B & _ & HB).
  pose proof (S_pos n M B Pd HB Hn) as SP.
  set (m := bsum n (fun i => bsum n (fun k => B i k * nth k sal 0)) / S_ n B).
  set (y := mv n B (fun j => nth j sal 0 - m)).
  assert (MY : forall i, (i < n)%nat -> mv n M y i = nth i sal 0 - m).
  { intros i Hi. unfold y. rewrite <- mv_mm. unfold mv. destruct HB as [R _].
    rewrite (bsum_ext n _ (fun k => delta i k * (nth k sal 0 - m))); [now rewrite bsum_delta|].
    intros k Hk. f_equal. now apply R. }
  assert (RY : forall i, (i < n)%nat -> nth i res 0 = nv * y i).
  { intros i Hi. destruct (HR i Hi) as (w & BW & ->).
    rewrite (best_unique s sv nv data (cast data i) w _ sal BW (best_w s sv nv g data Hm' Rg B (cast data i) HB) L).
    unfold estimate. rewrite L. fold n.
    rewrite <- (value_eq n M B (towards s sv data (cast data i)) Pd HB Hn (fun k => nth k sal 0) m eq_refl).
    change (fun k : nat => towards s sv data (cast data i) k * bsum n (fun j : nat => B k j * (nth j sal 0 - m)))
      with (fun k : nat => towards s sv data (cast data i) k * y k).
    pose proof (MY i Hi) as E. unfold mv, M, covariances in E.
    rewrite (bsum_ext n _ (fun k => towards s sv data (cast data i) k * y k + nv * (delta i k * y k))) in E.
    2:{ intros k Hk. unfold towards. rewrite (corr_sym s (cast data k)). ring. }
    rewrite bsum_plus, bsum_scal, bsum_delta in E by auto. lra. }
  assert (Y0 : bsum n y = 0).
  { unfold y, mv. rewrite (bsum_ext n _ (fun i => bsum n (fun k => B i k * nth k sal 0) - m * bsum n (fun k => B i k))).
    - rewrite bsum_minus, bsum_scal. replace (bsum n (fun i => bsum n (fun k => B i k))) with (S_ n B) by (unfold S_; apply bsum_swap).
      unfold m. field. lra.
    - intros i Hi. rewrite <- bsum_scal, <- bsum_minus. apply bsum_ext. intros; ring. }
  assert (N : sal <> []) by (intros C; rewrite C in L; destruct data; [congruence|discriminate]).
  assert (N' : res <> []) by (intros C; rewrite C in LR; destruct sal; [congruence|discriminate]).
  assert (LRn : length res = n) by congruence.
  assert (Mean : mean_of res = 0).
  { rewrite mean_bsum, LRn. rewrite (bsum_ext n _ (fun i => nv * y i)) by exact RY. rewrite bsum_scal, Y0. unfold Rdiv. ring. }
  split; [exact Mean|].
  rewrite (var_bsum res), (var_bsum sal), Mean, LRn, L. fold n. unfold Rdiv. apply Rmult_le_compat_r; [left; now apply Rinv_0_lt_compat|].
  rewrite (bsum_ext n _ (fun i => nv ^ 2 * y i ^ 2)) by (intros i Hi; rewrite RY by exact Hi; ring). rewrite bsum_scal.
  set (d := fun i => nth i sal 0 - mean_of sal).
  assert (Q : nv * bsum n (fun i => y i ^ 2) <= bsum n (fun i => y i * d i)).
  { assert (E : qform n M y = bsum n (fun i => y i * d i)).
    { rewrite qform_mv. rewrite (bsum_ext n (fun i => y i * mv n M y i) (fun i => y i * d i + (mean_of sal - m) * y i)).
      - rewrite bsum_plus, bsum_scal, Y0. ring.
      - intros i Hi. rewrite MY by exact Hi. unfold d. ring. }
    rewrite <- E. unfold M. change n with (length data). rewrite cov_qform. pose proof (covariance_psd_R s data y Hs Hz) as PS.
    assert (0 <= sv * bsum n (fun i => bsum n (fun j => y i * y j * correlation s (cast data i) (cast data j)))) by (apply Rmult_le_pos; [exact Hsv|exact PS]).
    fold n. lra. }
  change (fun i : nat => (nth i sal 0 - mean_of sal) ^ 2) with (fun i : nat => d i ^ 2).
  assert (D : 0 <= bsum n (fun i => (d i - nv * y i) ^ 2)) by (apply bsum_nonneg; intros; apply pow2_ge_0).
  rewrite (bsum_ext n _ (fun i => d i ^ 2 + (- (2 * nv) * (y i * d i) + nv ^ 2 * y i ^ 2))) in D by (intros; ring).
  rewrite !bsum_plus, !bsum_scal in D.
  set (a := bsum n (fun i => y i ^ 2)) in *. set (b := bsum n (fun i => y i * d i)) in *. set (c := bsum n (fun i => d i ^ 2)) in *.
  assert (nv * (nv * a) <= nv * b) by (apply Rmult_le_compat_l; lra). lra.
Qed.

(* ---- one mapping ---- *)
Lemma stage_bounds inv : inv_ok inv -> forall s sv nv g data sal, mappable s sv nv g data -> 0 < nv -> length sal = length data ->
  exists v e vs es, mapped inv s sv nv sal g data = Ok (Fin v, Fin e, map Fin vs, map Fin es) /\
    nv / INR (length data) <= e ^ 2 <= 2 * sv + nv / INR (length data) /\
    nv * (v - mean_of sal) ^ 2 <= 2 * sv * (INR (length data) * pop_var sal) /\
    mean_of vs = mean_of sal /\
    pop_var (map (fun q => fst q - snd q) (combine sal vs)) <= pop_var sal.
Proof.
  intros Hinv s sv nv g data sal Hm Hp L.
  destruct (one_stage inv Hinv s sv nv g data Hm Hp sal L) as (w & e & vs & es & EM & BW & He & Hq & LV & HV).
  exists (estimate w sal), e, vs, es. split; [exact EM|]. split; [rewrite Hq; now apply best_range with (1 := Hm)|].
  split; [now apply (estimate_off s sv nv g data Hm w BW)|].
  set (res := map (fun q => fst q - snd q) (combine sal vs)).
  assert (NR : forall i, (i < length data)%nat -> nth i res 0 = nth i sal 0 - nth i vs 0).
  { intros i Hi. unfold res. rewrite (Proofs_Besthist.nth_map _ _ _ _ (0, 0)) by (rewrite combine_length; lia). now rewrite combine_nth by congruence. }
  assert (LR : length res = length data) by (unfold res; rewrite map_length, combine_length; lia).
  assert (RO : residual_of s sv nv data sal res).
  { split; [congruence|]. intros i Hi. destruct (HV i Hi) as (wi & BWi & EV). exists wi. split; [exact BWi|]. now rewrite NR, EV. }
  destruct (residual_small s sv nv g data sal res Hm Hp L RO) as [M V]. split; [|exact V].
  pose proof (size_pos s sv nv g data Hm) as P.
  rewrite mean_bsum, LR in M. rewrite (bsum_ext _ _ (fun i => nth i sal 0 - nth i vs 0)) in M by exact NR. rewrite bsum_minus in M.
  rewrite !mean_bsum, L, LV. unfold Rdiv in *. lra.
Qed.

(* ---- the level ---- *)
Lemma two_stage_bounds large small nv g l value err : scales_nonzero large -> scales_nonzero small -> has_depth large (g :: map place l) ->
  s_pv small = s_pv large -> l <> [] -> 0 < nv -> two_stage large small nv g l value err ->
  let n := INR (length l) in let sv := pop_var (map hp_sal l) in
  0 <= err /\ 2 * nv / n <= err ^ 2 <= 4 * sv + 2 * nv / n /\ nv * (value - mean_of (map hp_sal l)) ^ 2 <= 8 * n * sv ^ 2.
Proof.
  intros NL NS HD HPV Hl Hp (w & w' & res & BW & RO & BW' & -> & ->). cbv zeta.
  set (sal := map hp_sal l) in *. set (data := map place l) in *.
  assert (LS : length sal = length data) by (unfold sal, data; now rewrite !map_length).
  assert (LD : length data = length l) by apply map_length.
  assert (HNE : data <> []) by (unfold data; destruct l; [congruence|discriminate]).
  assert (M1 : mappable large (pop_var sal) nv g data) by (split; [exact NL|]; split; [exact HD|]; split; [exact HNE|]; split; [apply pop_var_nonneg|lra]).
  assert (M2 : mappable small (pop_var res) nv g data).
  { split; [exact NS|]. split; [intros E; apply HD; congruence|]. split; [exact HNE|]. split; [apply pop_var_nonneg|lra]. }
  destruct (residual_small large (pop_var sal) nv g data sal res M1 Hp LS RO) as [RM RV].
  assert (LR : length res = length data) by (destruct RO; congruence).
  pose proof (best_range _ _ _ _ _ M1 w BW) as B1. pose proof (best_range _ _ _ _ _ M2 w' BW') as B2.
  pose proof (estimate_off _ _ _ _ _ M1 w BW sal LS) as O1. pose proof (estimate_off _ _ _ _ _ M2 w' BW' res LR) as O2.
  pose proof (size_pos _ _ _ _ _ M1) as P. rewrite LD in *. rewrite RM in O2.
  assert (D0 : 0 <= nv / INR (length l)) by (apply Rmult_le_pos; [lra|left; now apply Rinv_0_lt_compat]).
  split; [apply sqrt_pos|]. split.
  - rewrite pow2_sqrt by lra. replace (2 * nv / INR (length l)) with (2 * (nv / INR (length l))) by (unfold Rdiv; ring). lra.
  - pose proof (pop_var_nonneg res) as V0. set (sv := pop_var sal) in *. set (rv := pop_var res) in *.
    assert (R2 : rv * rv <= sv * sv) by (apply Rmult_le_compat; lra).
    assert (R3 : 2 * rv * (INR (length l) * rv) <= 2 * sv * (INR (length l) * sv)).
    { replace (2 * rv * (INR (length l) * rv)) with (2 * INR (length l) * (rv * rv)) by ring.
      replace (2 * sv * (INR (length l) * sv)) with (2 * INR (length l) * (sv * sv)) by ring. apply Rmult_le_compat_l; lra. }
    set (x := estimate w sal - mean_of sal) in *. set (y := estimate w' res) in *.
    replace (estimate w sal + y - mean_of sal) with (x + y) by (unfold x; ring). replace (y - 0) with y in O2 by ring.
    assert (S2 : nv * (x + y) ^ 2 <= 2 * (nv * x ^ 2) + 2 * (nv * y ^ 2)).
    { pose proof (pow2_ge_0 (x - y)). assert (0 <= nv * (x - y) ^ 2) by (apply Rmult_le_pos; lra).
      replace (2 * (nv * x ^ 2) + 2 * (nv * y ^ 2)) with (nv * (x + y) ^ 2 + nv * (x - y) ^ 2) by ring. lra. }
    replace (8 * INR (length l) * sv ^ 2) with (2 * (2 * sv * (INR (length l) * sv)) + 2 * (2 * sv * (INR (length l) * sv))) by ring. lra.
Qed.

Lemma level_bounds inv cfg large small g t l nv : inv_ok inv -> config_scales cfg large small ->
  scales_nonzero large -> scales_nonzero small -> has_depth large (g :: map place l) ->
  (5 < length l)%nat -> noise_estimate (kept l) nv -> 0 < nv ->
  exists value err sv points, map_level inv cfg (fpoint g) t (hist_of (map known l))
    = Ok (Some (mkLevelOut t (Fin value) (Fin err) (Fin nv) (Fin sv) points)) /\
    let n := INR (length points) in
    0 < n /\ 0 <= err /\ 2 * nv / n <= err ^ 2 <= 4 * sv + 2 * nv / n /\
    nv * (value - mean_of (map hp_sal (kept l))) ^ 2 <= 8 * n * sv ^ 2.
Proof.
  intros HI HC NL NS HD H5 EN Hn.
  destruct (level_mapped inv cfg large small g t l nv HI HC NL NS HD H5 EN Hn) as (value & err & TS & EM).
  exists value, err, (pop_var (map hp_sal (kept l))), (map (fun q => (Fin (hp_long q), Fin (hp_lat q))) (kept l)).
  split; [exact EM|]. cbv zeta. rewrite map_length.
  assert (Hl : l <> []) by (destruct l; [cbn in H5; lia|discriminate]).
  destruct (removed l Hl) as (idx & _ & _ & HK).
  assert (HSub : forall q, In q (kept l) -> In q l) by (intros q Hq; unfold kept in Hq; cbv zeta in Hq; apply filter_In in Hq; tauto).
  assert (HDk : has_depth large (g :: map place (kept l))).
  { intros E p [<-|Hp]; [apply HD; [exact E|now left]|]. apply in_map_iff in Hp as (q & <- & Hq). apply HD; [exact E|]. right. now apply in_map, HSub. }
  assert (PV : s_pv small = s_pv large) by (destruct HC as (_ & _ & _ & _ & _ & _ & _ & _ & C9 & _); exact C9).
  split; [apply lt_0_INR; destruct (kept l); [congruence|cbn; lia]|].
  exact (two_stage_bounds large small nv g (kept l) value err NL NS HDk PV HK Hn TS).
Qed.
