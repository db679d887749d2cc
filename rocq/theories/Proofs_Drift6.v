(* The effective number of samples of profiles far apart, and a drift that is recovered *)
From Coq Require Import String Ascii.
From Coq Require Import ZArith List Bool Lia Reals Lra Sorted Permutation FunctionalExtensionality.
From Verif Require Import Num Np NumFacts NpFacts Utilities Finders Stats FitCond Topo Helper MapProfile Mapping Config Calib
  Spec_Utilities Spec_Finders Spec_Stats Spec_FitCond Spec_Calib Spec_Topo Spec_Depth Spec_Drift LinR
  Proofs_Besthist Proofs_Stats3 Proofs_Thetas2 Proofs_Thetas3 Proofs_Curve Proofs_FC3 Proofs_FC9 Proofs_FC11 Proofs_Calib4 Proofs_Depth3 Proofs_Depth4
  Proofs_Drift2 Proofs_Drift3 Proofs_Drift4 Proofs_Drift5.
Import ListNotations.
Local Open Scope R_scope.

Notation sumR l := (fold_right Rplus 0 l).
Lemma sum_le {A} (f g : A -> R) l : (forall x, In x l -> f x <= g x) -> sumR (map f l) <= sumR (map g l).
Proof. induction l as [|a l IH]; intros H; cbn [map fold_right]; [lra|]. pose proof (H a (or_introl eq_refl)). assert (sumR (map f l) <= sumR (map g l)) by (apply IH; intros; apply H; right; assumption). lra. Qed.
Lemma sum_const {A} (x : R) (l : list A) : sumR (map (fun _ => x) l) = INR (length l) * x.
Proof. induction l as [|a l IH]; [cbn; lra|]. cbn [map fold_right length]. rewrite IH, S_INR. ring. Qed.
(* a sum by groups *)
Definition members (h : nat -> nat) (l : list nat) (p : nat) : list nat := filter (fun i => Nat.eqb (h i) p) l.
Lemma sum_indicator (x : R) q N : (q < N)%nat -> sumR (map (fun p => if Nat.eqb q p then x else 0) (seq 0 N)) = x.
Proof.
  intros Hq. replace N with (q + S (N - q - 1))%nat by lia. rewrite seq_app, map_app. cbn [seq map Nat.add]. rewrite Nat.eqb_refl.
  assert (Z : forall s m, (forall p, (s <= p < s + m)%nat -> q <> p) -> sumR (map (fun p => if Nat.eqb q p then x else 0) (seq s m)) = 0).
  { intros s m. revert s. induction m as [|m IH]; intros s H; cbn [seq map fold_right]; [reflexivity|]. destruct (Nat.eqb_spec q s) as [E|_]; [exfalso; apply (H s); [lia|exact E]|]. rewrite IH; [lra|]. intros p Hp. apply H. lia. }
  rewrite fold_right_app. cbn [fold_right]. rewrite (Z (S q)) by (intros; lia).
  assert (G : forall a l, fold_right Rplus a l = sumR l + a). { intros a l. induction l as [|b l IH]; cbn; [lra|]. rewrite IH. lra. }
  rewrite G, Z by (intros; lia). lra.
Qed.
Lemma sum_groups (h : nat -> nat) (f : nat -> R) N l : (forall i, In i l -> (h i < N)%nat) ->
  sumR (map (fun i => f (h i)) l) = sumR (map (fun p => INR (length (members h l p)) * f p) (seq 0 N)).
Proof.
  induction l as [|a l IH]; intros H.
  - cbn [map fold_right]. rewrite (map_ext _ (fun _ => 0)) by (intros; cbn; ring). rewrite sum_const. ring.
  - cbn [map fold_right]. rewrite IH by (intros; apply H; right; assumption).
    rewrite (map_ext (fun p => INR (length (members h (a :: l) p)) * f p) (fun p => (if Nat.eqb (h a) p then f (h a) else 0) + INR (length (members h l p)) * f p)).
    + rewrite <- (sum_indicator (f (h a)) (h a) N) at 1 by (apply H; left; reflexivity).
      generalize (seq 0 N). intros ps. induction ps as [|p ps IHp]; cbn [map fold_right]; [lra|]. lra.
    + intros p. unfold members. cbn [filter]. destruct (Nat.eqb_spec (h a) p) as [->|]; [|lra]. cbn [length]. rewrite S_INR. ring.
Qed.

Lemma filter_le {A} (f : A -> bool) l : (length (filter f l) <= length l)%nat.
Proof. induction l as [|a l IH]; cbn; [lia|]. destruct (f a); cbn; lia. Qed.
Lemma far_number rows lv v N K eps : (K <= N)%nat -> length rows = (10 * N)%nat -> 0 <= eps ->
  effective_number rows lv v ->
  (forall i j, (i < 10 * N)%nat -> (j < 10 * N)%nat -> exists x, lv i j = Fin x /\ 0 < x /\ x <= 1 /\ ((i / 10)%nat <> (j / 10)%nat -> x <= eps)) ->
  (forall p, (K <= p < N)%nat -> exists i, (i / 10)%nat = p /\ In i (valid_positions (col_x rows) (col_y rows))) ->
  INR (N - K) / (1 + 10 * INR N * eps) <= v.
Proof.
  intros KN L E0 EN HC HP. assert (LX : length (col_x rows) = (10 * N)%nat) by (unfold col_x; rewrite map_length; exact L). unfold effective_number in EN. cbv zeta in EN. set (pos := valid_positions (col_x rows) (col_y rows)) in *. destruct EN as (c & Ec & _ & ->).
  assert (B : forall i, In i pos -> (i < 10 * N)%nat).
  { intros i Hi. unfold pos, valid_positions in Hi. apply filter_In in Hi as (Hi & _). apply in_seq in Hi. rewrite LX in Hi. lia. }
  assert (LP : (length pos <= 10 * N)%nat).
  { unfold pos, valid_positions. rewrite LX. eapply Nat.le_trans; [apply filter_le|]. rewrite seq_length. lia. }
  set (h := fun i => (i / 10)%nat).
  set (m := fun p => INR (length (members h pos p))). set (dl := 10 * INR N * eps).
  assert (DL : 0 <= dl) by (unfold dl; pose proof (pos_INR N); apply Rmult_le_pos; [lra|exact E0]).
  assert (HB : forall i, In i pos -> (h i < N)%nat). { intros i Hi. apply B in Hi. apply Nat.div_lt_upper_bound; lia. }
  assert (M1 : forall p, (K <= p < N)%nat -> 1 <= m p).
  { intros p Hp. destruct (HP p Hp) as (i & Ei & Ii). unfold m. change 1 with (INR 1). apply le_INR.
    assert (I : In i (members h pos p)) by (apply filter_In; split; [exact Ii|apply Nat.eqb_eq; exact Ei]). destruct (members h pos p); [destruct I|cbn; lia]. }
  assert (CV : forall i j, In i pos -> In j pos -> 0 < c i j /\ c i j <= (if Nat.eqb (h j) (h i) then 1 else 0) + eps).
  { intros i j Hi Hj. destruct (HC i j (B i Hi) (B j Hj)) as (x & Ex & X0 & X1 & XE). rewrite (Ec i j Hi Hj) in Ex. injection Ex as ->. split; [exact X0|].
    destruct (Nat.eqb_spec (h j) (h i)) as [Q|Q]; [lra|]. assert (x <= eps) by (apply XE; intros C; apply Q; symmetry; exact C). lra. }
  assert (SB : forall i, In i pos -> 0 < sumR (map (c i) pos) <= m (h i) + dl).
  { intros i Hi. split.
    - apply sum_positive; [intros Q; rewrite Q in Hi; destruct Hi|]. intros j Hj. apply CV; assumption.
    - eapply Rle_trans; [apply sum_le; intros j Hj; apply (CV i j Hi Hj)|].
      assert (G : forall l, sumR (map (fun j => (if Nat.eqb (h j) (h i) then 1 else 0) + eps) l) = INR (length (members h l (h i))) + INR (length l) * eps).
      { induction l as [|b l IH]; [cbn; lra|]. cbn [map fold_right]. rewrite IH. unfold members. cbn [filter length]. rewrite S_INR. destruct (Nat.eqb (h b) (h i)); cbn [length]; rewrite ?S_INR; ring. }
      rewrite G. fold (m (h i)). apply Rplus_le_compat_l. unfold dl. apply Rmult_le_compat_r; [exact E0|]. apply le_INR in LP. rewrite mult_INR in LP. replace (INR 10) with 10 in LP by (cbn; lra). exact LP. }
  eapply Rle_trans; [|apply (sum_le (fun i => 1 / (m (h i) + dl)))].
  - rewrite (sum_groups h (fun p => 1 / (m p + dl)) N) by exact HB.
    eapply Rle_trans; [|apply (sum_le (fun p => if Nat.ltb p K then 0 else 1 / (1 + dl)))].
    + right. assert (SQ : seq 0 N = seq 0 K ++ seq K (N - K)) by (pose proof (seq_app K (N - K) 0) as SA; cbn [Nat.add] in SA; rewrite <- SA; f_equal; lia). rewrite SQ. rewrite map_app, fold_right_app.
      rewrite (map_ext_in _ (fun _ : nat => 1 / (1 + dl)) (seq K (N - K))) by (intros p Hp; apply in_seq in Hp; destruct (Nat.ltb_spec p K); [lia|reflexivity]).
      rewrite (map_ext_in _ (fun _ => 0) (seq 0 K)) by (intros p Hp; apply in_seq in Hp; destruct (Nat.ltb_spec p K); [reflexivity|lia]).
      rewrite sum_const, seq_length. assert (G : forall a q, fold_right Rplus a (map (fun _ : nat => 0) q) = a). { intros a q. induction q as [|x q IH]; cbn; [reflexivity|]. rewrite IH. lra. }
      rewrite G. unfold dl. field. pose proof (pos_INR N). assert (0 <= 10 * INR N * eps) by exact DL. lra.
    + intros p Hp. apply in_seq in Hp. fold (m p). destruct (Nat.ltb_spec p K) as [PK|PK].
      { unfold Rdiv. rewrite Rmult_1_l. pose proof (pos_INR (length (members h pos p))). fold (m p) in *. destruct (Req_dec (m p) 0) as [->|NZ]; [lra|]. apply Rmult_le_pos; [assumption|]. left. apply Rinv_0_lt_compat. lra. }
      pose proof (M1 p ltac:(lia)) as M. unfold Rdiv. rewrite !Rmult_1_l.
      apply Rmult_le_reg_r with (1 + dl); [lra|]. rewrite Rinv_l by lra. apply Rmult_le_reg_r with (m p + dl); [lra|].
      replace (m p * / (m p + dl) * (1 + dl) * (m p + dl)) with (m p * (1 + dl)) by (field; lra). assert (dl <= m p * dl) by (rewrite <- (Rmult_1_l dl) at 1; apply Rmult_le_compat_r; lra). lra.
  - intros i Hi. destruct (SB i Hi) as (S0 & S1). unfold Rdiv. rewrite !Rmult_1_l. apply Rinv_le_contravar; assumption.
Qed.

Lemma far_exp x : 0 <= x -> exp (- x) <= 1 / (1 + x).
Proof. intros Hx. rewrite exp_Ropp. unfold Rdiv. rewrite Rmult_1_l. apply Rinv_le_contravar; [lra|]. pose proof (exp_ineq1_le x). lra. Qed.

Lemma valid_position (rows : list row) i x q : (i < length rows)%nat -> nth i rows (0, None) = (x, Some q) -> In i (valid_positions (col_x rows) (col_y rows)).
Proof.
  intros Hi E. unfold valid_positions. apply filter_In. assert (LX : length (col_x rows) = length rows) by (unfold col_x; now rewrite map_length). split; [apply in_seq; rewrite LX; lia|].
  assert (EX : nth i (col_x rows) NaN = Fin x). { unfold col_x. rewrite (nth_map _ _ _ _ ((0, None) : row)) by exact Hi. now rewrite E. }
  assert (EY : nth i (col_y rows) NaN = Fin (fst q)). { unfold col_y. rewrite (nth_map _ _ _ _ ((0, None) : row)) by exact Hi. now rewrite E. }
  now rewrite EX, EY.
Qed.
Lemma block_nth {A} (f : nat -> list A) w d N : (forall p, length (f p) = w) -> forall s p k, (p < N)%nat -> (k < w)%nat ->
  nth (w * p + k) (flat_map f (seq s N)) d = nth k (f (s + p)%nat) d.
Proof.
  intros L. induction N as [|N IH]; intros s p k Hp Hk; [lia|]. cbn [seq flat_map]. destruct p as [|p].
  - rewrite Nat.mul_0_r, Nat.add_0_r, app_nth1 by (rewrite L; lia). reflexivity.
  - rewrite app_nth2 by (rewrite L; nia). rewrite L. replace (w * S p + k - w)%nat with (w * p + k)%nat by nia. rewrite IH by lia. f_equal. f_equal. lia.
Qed.

Lemma many_drift k a b r : (k <= 2)%nat -> let n := (6 + k)%nat in many_run n k a b 0 = (Ok r, tt) ->
  forall j, (j < n)%nat -> entry1 (k_factor r) j = Fin (a + b * (INR (S j) + INR k)) /\ entry1 (k_deriv r) j = Fin b.
Proof.
  intros K2 n E j Hj. assert (H6 : (k + 2 <= n <= 90)%nat) by (unfold n; lia). destruct (many_coords n k H6) as (l0 & EL0 & DG). unfold many_run in E.
  assert (HE : errors_given (fun s _ _ => s) (many_src n) (many_map k a b n) (seq 0 n)) by exact (follows_errors _ _ _ _ _ _ (many_follows n k H6 a b)).
  destruct (drift_recovered exact_det exact_solve exact_inv no_optimum unit no_noise line demo_interp2d flat_sea (fun s _ _ => s) (fun c _ _ => c)
    exact_det_ok exact_solve_ok exact_inv_ok no_noise_ok eq_refl (many_longs n) (many_lats n) (1 / 20) (1 / 20) 1 true ltac:(lra) ltac:(lra) ltac:(intros; lra) DG
    (many_src n) (many_map k a b n) (many_set n 0) (repeat 1 n) (many_nos n) 1 (seq 0 n) 0 (many_temperatures n) eq_refl eq_refl (many_rows n k H6 0)) with (a := a) (b := b) (g := tt) (r := r) (g' := tt)
    as (l & per & sd & fi & v & x0 & EL & EP & ES & EB & EN & FU & _ & K & _).
  - intros row [<-|[]]. reflexivity.
  - reflexivity.
  - lra.
  - exact (many_series n k H6).
  - discriminate.
  - exact (many_ascending n k H6).
  - exact (many_follows n k H6 a b).
  - exact E.
  - assert (l0 = l) as -> by congruence. assert (per = Fin (1 / 2)) as -> by (injection EP as <-; reflexivity).
    destruct (thetas_succeed line (series_of (rd (many_sal n)) (rd (many_tmp n)) (rd (many_pre n)) (rd (many_tmp n)) None None None None (seq 0 n)) 2 n (1 / 2) 0 100 line_total (many_wide n k H6) (many_range n k H6) ltac:(lra) (many_ties n k H6)) as (th & mats & ET).
    assert (Eth : sd_thetas sd = th).
    { destruct (select_total line demo_interp2d flat_sea (many_longs n) (many_lats n) l EL (many_src n) (many_map k a b n) (many_set n 0) (many_nos n) (rd (many_sal n)) (rd (many_tmp n)) (rd (many_pre n)) (rd (many_tmp n)) None None None None (1 / 2)
        (many_rectangular n) eq_refl (rep_value n 34 35) (rep_value n 0 10) (rep_value n 0 100) (rep_value n 0 10)) with (idx := seq 0 n) (th := th) (mats := mats) as (sd' & ES' & <-); try reflexivity.
      - intros m [<-|[<-|[<-|[]]]]; cbn [m_cols la_ptmp la_mapped_sal la_map_sal_errors many_map]; unfold many_tmp, many_mapped; rewrite ?repeat_length, ?map_length, ?seq_length, nos_length; reflexivity.
      - now rewrite longs_length, nos_length.
      - intros i Hi. apply in_seq in Hi. rewrite nos_length. lia.
      - rewrite seq_length. exact ET.
      - rewrite ES in ES'. injection ES' as <-. reflexivity. }
    pose proof (select_parts _ _ _ _ _ _ _ _ ES) as (_ & _ & _ & _ & _ & _ & _ & L10). rewrite Eth in *.
    pose proof (samples_length (fun s _ _ => s) (many_src n) (many_map k a b n) (many_nos n) (seq 0 n) th L10) as LS. rewrite seq_length in LS.
    assert (NV : 5 <= v).
    { eapply Rle_trans; [|apply (far_number _ _ v n k (1 / 401) ltac:(unfold n; lia) LS ltac:(lra) EN)].
      - replace (n - k)%nat with 6%nat by (unfold n; lia). assert (I0 : 0 <= INR n <= 8) by (split; [apply pos_INR|replace 8 with (INR 8) by (cbn; lra); apply le_INR; unfold n; lia]).
        replace (INR 6) with 6 by (cbn; lra). apply Rmult_le_reg_r with (1 + 10 * INR n * (1 / 401)); [lra|].
        replace (6 / (1 + 10 * INR n * (1 / 401)) * (1 + 10 * INR n * (1 / 401))) with 6 by (field; lra). lra.
      - intros i k' Hi Hk. destruct (cov_value line demo_interp2d flat_sea (fun s _ _ => s) (many_longs n) (many_lats n) (1 / 20) (1 / 20) 1 true ltac:(lra) ltac:(lra) ltac:(intros; lra) DG (many_src n) (many_map k a b n) (many_set n 0) (seq 0 n) (many_temperatures n) l _ sd fi EL ES EB i k') as (z & z' & w & EC & W0 & W1); [rewrite seq_length; exact Hi|rewrite seq_length; exact Hk|].
        cbv zeta in EC. eexists. split; [exact EC|].
        assert (Bi : (i / 10 < n)%nat) by (apply Nat.div_lt_upper_bound; [lia|assumption]). assert (Bk : (k' / 10 < n)%nat) by (apply Nat.div_lt_upper_bound; [lia|assumption]).
        rewrite !seq_nth by assumption. cbn [Nat.add]. rewrite !longs_nth, !lats_nth by assumption. unfold exchanged.
        match goal with |- context [exp (- (?A + ?B + ?C))] => set (x := A + B + C); assert (XB : 0 <= A /\ B = 400 * (INR (i / 10) - INR (k' / 10)) ^ 2 /\ 0 <= C) end.
        { split; [apply pow2_ge_0|]. split; [field|]. destruct (Req_EM_T (vorticity_of 10 z) 0); [lra|]. 
          assert (Q : 0 < vorticity_of 10 z ^ 2 + vorticity_of 10 z' ^ 2).
          { pose proof (pow2_ge_0 (vorticity_of 10 z')). assert (0 < vorticity_of 10 z ^ 2) by (rewrite <- Rsqr_pow2; apply Rsqr_pos_lt; assumption). lra. }
          apply Rmult_le_pos; [|lra]. apply Rmult_le_pos; [apply pow2_ge_0|]. left. apply Rinv_0_lt_compat. exact Q. }
        destruct XB as (XA & XB & XC). pose proof (pow2_ge_0 (INR (i / 10) - INR (k' / 10))) as SQ. assert (X0 : 0 <= x) by (unfold x; lra).
        pose proof (exp_pos (- x)) as PX. assert (U : exp (- x) <= 1). { pose proof (far_exp x X0) as FX. assert (1 / (1 + x) <= 1); [|lra]. apply Rmult_le_reg_r with (1 + x); [lra|]. unfold Rdiv. rewrite Rmult_1_l, Rinv_l by lra. lra. }
        assert (WU : exp (- x) * w <= exp (- x)) by (rewrite <- (Rmult_1_r (exp (- x))) at 2; apply Rmult_le_compat_l; lra).
        split; [apply Rmult_lt_0_compat; assumption|]. split; [lra|]. intros NE.
        assert (Q1 : 1 <= (INR (i / 10) - INR (k' / 10)) ^ 2).
        { destruct (Nat.lt_ge_cases (i / 10) (k' / 10)) as [Q|Q].
          - assert (Q' : INR (S (i / 10)) <= INR (k' / 10)) by (apply le_INR; lia). rewrite S_INR in Q'. replace ((INR (i / 10) - INR (k' / 10)) ^ 2) with ((INR (k' / 10) - INR (i / 10)) * (INR (k' / 10) - INR (i / 10))) by ring. rewrite <- (Rmult_1_l 1). apply Rmult_le_compat; lra.
          - assert (Q' : INR (S (k' / 10)) <= INR (i / 10)) by (apply le_INR; lia). rewrite S_INR in Q'. replace ((INR (i / 10) - INR (k' / 10)) ^ 2) with ((INR (i / 10) - INR (k' / 10)) * (INR (i / 10) - INR (k' / 10))) by ring. rewrite <- (Rmult_1_l 1). apply Rmult_le_compat; lra. }
        eapply Rle_trans; [exact WU|]. eapply Rle_trans; [apply far_exp, X0|]. unfold Rdiv. rewrite !Rmult_1_l. apply Rinv_le_contravar; [lra|]. unfold x. lra.
      - intros p Hp. destruct (many_chosen n k H6 th mats ET p (proj2 Hp)) as (lv & Hlv & IL). destruct (In_nth _ _ 0%nat IL) as (q & Hq & Eq).
        pose proof (Proofs_Drift2.levels_le th p) as LL. rewrite <- Proofs_Drift2.levels_valid in LL. exists (10 * p + q)%nat. split; [rewrite Nat.mul_comm, Nat.div_add_l by lia; rewrite Nat.div_small by lia; lia|].
        assert (ER : nth (10 * p + q) (samples (fun s _ _ => s) (many_src n) (many_map k a b n) (many_nos n) (seq 0 n) th) (0, None) = sample (fun s _ _ => s) (many_src n) (many_map k a b n) (many_nos n) p (Some lv)).
        { unfold samples. rewrite seq_length. rewrite (block_nth _ 10 _ n); [|intros q'; rewrite map_length; apply places_ten, L10|apply Hp|lia]. cbn [Nat.add]. rewrite seq_nth by apply Hp. cbn [Nat.add].
          rewrite (nth_map _ _ _ _ None) by (rewrite places_ten by exact L10; lia). f_equal. unfold places. rewrite app_nth1 by (rewrite map_length; exact Hq). rewrite (nth_map _ _ _ _ 0%nat) by exact Hq. now rewrite Eq. }
        assert (HR : (10 * p + q < length (samples (fun s _ _ => s) (many_src n) (many_map k a b n) (many_nos n) (seq 0 n) th))%nat) by (rewrite LS; lia).
        destruct (many_error n k H6 a b p lv Hp Hlv) as (e & Ee & _). eapply valid_position; [exact HR|]. rewrite ER. unfold sample. rewrite many_ratio, Ee by assumption. reflexivity. }
    assert (x0 = INR (S k)) as ->.
    { destruct FU as (p & i & y & Hp & Ii & Er & -> & F). rewrite seq_length in Hp. rewrite seq_nth in * by exact Hp. cbn [Nat.add] in *. rewrite nos_nth by exact Hp.
      destruct (Nat.lt_trichotomy p k) as [Q|[->|Q]]; [|reflexivity|].
      - rewrite many_outside in Er by lia. discriminate.
      - exfalso. destruct (many_chosen n k H6 th mats ET k ltac:(unfold n; lia)) as (lv & Hlv & IL). apply (F k lv (a + b * nth k (many_nos n) 0) Q IL). rewrite seq_nth by lia. apply many_ratio; [exact H6|cbn; lia|exact Hlv]. }
    destruct (K (conj (Z.le_refl 0) NV) j) as (F1 & F2); [apply in_seq; lia|]. rewrite F1, F2. split; [|reflexivity]. rewrite nos_nth by exact Hj. f_equal. f_equal. f_equal. f_equal.
    change (hd 0 (numbers_of (many_nos n) (seq 0 n))) with (INR 1). rewrite S_INR. change (INR 1) with 1. ring.
Qed.

Lemma drift_shifted : exists k b r, follows (fun s _ _ => s) (many_src (6 + k)) (many_map k 1 b (6 + k)) (many_nos (6 + k)) (seq 0 (6 + k)) (fun x => 1 + b * x) /\
  many_run (6 + k) k 1 b 0 = (Ok r, tt) /\
  forall j, (j < 6 + k)%nat -> exists f, entry1 (k_factor r) j = Fin f /\ f <> 1 + b * nth j (many_nos (6 + k)) 0.
Proof.
  assert (H : (1 + 2 <= 6 + 1 <= 90)%nat) by lia. destruct (many_completes (6 + 1) 1 H 1 (1 / 10) 0 (or_intror eq_refl)) as (r & E).
  exists 1%nat, (1 / 10), r. split; [exact (many_follows (6 + 1) 1 H 1 (1 / 10))|]. split; [exact E|]. intros j Hj.
  destruct (many_drift 1 1 (1 / 10) r ltac:(lia) E j Hj) as (F & _). eexists. split; [exact F|]. rewrite nos_nth by exact Hj. change (INR 1) with 1. lra.
Qed.
