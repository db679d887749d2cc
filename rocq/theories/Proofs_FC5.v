(* Proofs for fit_cond: scores of the constant and the linear fit *)
From Coq Require Import String ZArith List Bool Reals Lra Lia Sorted Permutation FunctionalExtensionality.
From Verif Require Import Num Np NumFacts NpFacts Utilities Finders Stats FitCond Spec_Utilities Spec_Finders Spec_Stats
  Spec_FitCond LinR LeastSq Proofs_Utilities Proofs_Besthist Proofs_Thetas2 Proofs_Stats1 Proofs_Fit Proofs_FC1 Proofs_FC2 Proofs_FC3 Proofs_FC4.
Import ListNotations.
Local Open Scope R_scope.
Local Open Scope list_scope.

Section Scores.
  Variable det : nat -> (nat -> nat -> XR) -> XR.
  Variable solve : nat -> nat -> (nat -> nat -> XR) -> (nat -> nat -> XR) -> res (nat -> nat -> XR).
  Variable inv : nat -> (nat -> nat -> XR) -> res (nat -> nat -> XR).
  Variable least_squares : (list XR -> res (list XR)) -> list XR -> res (list (list XR) * list XR).
  Hypothesis Hdet : det_ok det.
  Hypothesis Hsolve : solve_ok solve.
  Hypothesis Hinv : inv_ok inv.

  Variables (rows : list row) (lvcov : nat -> nat -> XR) (x1 : R) (xr us vs : list R) (v : R).
  Notation xs := (x1 :: xr).
  Hypothesis Huse : usable rows.
  Hypothesis Hxs : sorted_positions rows xs.
  Hypothesis Hus : distinct_of (map fst rows) us.
  Hypothesis Hvs : distinct_of xs vs.
  Notation n := (nobs rows).
  Notation ys := (values rows).
  Notation es := (errors rows).
  Notation x0 := (x0R xs).
  Notation xsc := (xscR xs).
  Notation y0 := (y0R rows).
  Notation ysc := (yscR rows).
  Notation ev := (evR rows).
  Notation wl := (wR rows).
  Notation nx := (normx xs).
  Notation ny := (normy rows).
  Hypothesis Hv : eff_dof n (lvR rows lvcov) = Fin v.

  Definition P : @prep XR :=
    mkPrep n (Fin x0) (Fin xsc) (Fin y0) (Fin ysc) (map Fin (map nx xs)) (map Fin (map ny ys))
        (map Fin (map (fun e => e / ysc) es)) (map Fin (map nx us)) (map Fin (map nx vs))
        (map (findex xs) vs) (map Fin ev) (map Fin wl) (Fin v) (limR xs vs) (lvR rows lvcov).

  Lemma prepare_P : prepare (col_x rows) (col_y rows) (col_e rows) lvcov = P.
  Proof. rewrite (prepare_fin rows lvcov xs us vs Huse Hxs Hus Hvs), Hv. reflexivity. Qed.

  Lemma Lxs : length xs = n. Proof. exact (xs_length rows xs Hxs). Qed.
  Lemma Lys : length ys = n. Proof. apply ys_length. Qed.
  Lemma Les : length es = n. Proof. apply es_length. Qed.
  Lemma Lw : length wl = n. Proof. apply wR_length. Qed.
  Lemma Lev : length ev = n. Proof. apply evR_length. Qed.
  Lemma n_pos : (0 < n)%nat. Proof. rewrite <- Lxs. cbn [length]. lia. Qed.
  Lemma ysc_pos : 0 < ysc. Proof. apply yscR_pos. Qed.
  Lemma xsc_pos : 0 < xsc. Proof. apply (xscR_pos rows); auto. Qed.

  Definition u (i : nat) : R := 1 / nth i es 0 ^ 2.
  Lemma es_nz i : (i < n)%nat -> nth i es 0 <> 0.
  Proof. intros Hi. apply Huse. apply nth_In. now rewrite Les. Qed.
  Lemma u_pos i : (i < n)%nat -> 0 < u i.
  Proof.
    intros Hi. unfold u. apply Rmult_lt_0_compat; [lra|]. apply Rinv_0_lt_compat.
    rewrite <- Rsqr_pow2. apply Rsqr_pos_lt. now apply es_nz.
  Qed.
  Definition cw : R := mean_of ev * ysc ^ 2.
  Lemma cw_pos : 0 < cw.
  Proof. unfold cw. pose proof (mean_ev_pos rows Huse). pose proof ysc_pos. apply Rmult_lt_0_compat; auto. nra. Qed.
  Lemma nth_ev i : (i < n)%nat -> nth i ev 0 = / (u i * ysc ^ 2).
  Proof.
    intros Hi. unfold evR. rewrite (nth_map _ _ _ _ 0) by now rewrite Les. unfold u. pose proof ysc_pos.
    pose proof (es_nz i Hi). field. repeat split; auto; lra.
  Qed.
  Lemma nth_w i : (i < n)%nat -> nth i wl 0 = cw * u i.
  Proof.
    intros Hi. unfold wR. rewrite (nth_map _ _ _ _ 0) by now rewrite Lev. rewrite nth_ev by auto.
    unfold cw. pose proof ysc_pos. pose proof (u_pos i Hi). field. repeat split; auto; lra.
  Qed.
  Lemma nth_ny i : (i < n)%nat -> nth i (map ny ys) 0 = (nth i ys 0 - y0) / ysc.
  Proof. intros Hi. rewrite (nth_map _ _ _ _ 0) by now rewrite Lys. reflexivity. Qed.
  Lemma nth_nx i : (i < n)%nat -> nth i (map nx xs) 0 = (nth i xs 0 - x0) / xsc.
  Proof. intros Hi. rewrite (nth_map _ _ _ _ 0) by now rewrite Lxs. reflexivity. Qed.
  Lemma U_pos : 0 < bsum n u.
  Proof.
    clear Hv. pose proof n_pos as N. destruct n as [|k] eqn:E; [lia|]. rewrite bsum_S.
    assert (0 < u 0) by (apply u_pos; lia).
    assert (0 <= bsum k (fun i => u (S i))) by (apply bsum_nonneg; intros i Hi; left; apply u_pos; lia). lra.
  Qed.
  Lemma wm_eq : weighted_mean rows = bsum n (fun i => u i * nth i ys 0) / bsum n u.
  Proof.
    unfold weighted_mean. rewrite Lys. f_equal. apply bsum_ext. intros i Hi. unfold u. field. now apply es_nz.
  Qed.
  Lemma W_fin : finmat n n (wmat P) (diagR wl).
  Proof. unfold wmat, P. cbn [wdiag]. apply diagm_fin. apply Lw. Qed.

  (* the constant, in normalised values *)
  Definition aN : R := (weighted_mean rows - y0) / ysc.
  Lemma aN_eq : aN = bsum n (fun i => nth i wl 0 * nth i (map ny ys) 0) / bsum n (fun i => nth i wl 0).
  Proof.
    unfold aN. rewrite wm_eq.
    rewrite (bsum_ext n (fun i => nth i wl 0) (fun i => cw * u i)) by apply nth_w. rewrite bsum_scal.
    rewrite (bsum_ext n (fun i => nth i wl 0 * nth i (map ny ys) 0) (fun i => cw / ysc * (u i * nth i ys 0 - u i * y0))).
    2:{ intros i Hi. rewrite nth_w, nth_ny by auto. pose proof ysc_pos. field. lra. }
    rewrite bsum_scal, bsum_minus, bsum_scal_r. pose proof ysc_pos. pose proof cw_pos. pose proof U_pos. field. repeat split; lra.
  Qed.

  Lemma rss_fin l : length l = n -> rss_of P (map Fin l) = Fin (ysc ^ 2 * bsum n (fun i => nth i l 0 ^ 2 * u i)).
  Proof.
    intros L. unfold rss_of. cbn [err_var P].
    assert (E : map (fun q : XR * XR => ndiv (nsq (fst q)) (snd q)) (combine (map Fin l) (map Fin ev))
      = map Fin (map (fun i => ysc ^ 2 * (nth i l 0 ^ 2 * u i)) (seq 0 n))).
    { apply (nth_ext _ _ NaN NaN).
      - rewrite !map_length, combine_length, !map_length, seq_length, L, Lev. apply Nat.min_id.
      - intros i Hi. rewrite map_length, combine_length, !map_length, L, Lev, Nat.min_id in Hi.
        rewrite (nth_map _ _ _ _ (NaN, NaN)) by (rewrite combine_length, !map_length, L, Lev, Nat.min_id; auto).
        rewrite combine_nth by (rewrite !map_length, L, Lev; auto). cbn [fst snd].
        rewrite map_map, (nth_map _ _ _ _ 0%nat) by (rewrite seq_length; auto). rewrite seq_nth by auto. cbn [Nat.add].
        rewrite (nth_map Fin l i NaN 0), (nth_map Fin ev i NaN 0) by (rewrite ?L, ?Lev; auto). unfold nsq. cbn [nmul XR_Num xmul].
        rewrite nth_ev by auto. pose proof ysc_pos. pose proof (u_pos i Hi).
        rewrite ndiv_fin.
        + f_equal. field. repeat split; auto; lra.
        + apply Rinv_neq_0_compat. apply Rmult_integral_contrapositive_currified; nra. }
    rewrite E, nsum_fin. f_equal. rewrite <- bsum_scal. reflexivity.
  Qed.

  Lemma offset_rss : rss_of P (map (fun y => nsub y (Fin aN)) (yf P)) = Fin (flat_ss rows (weighted_mean rows)).
  Proof.
    cbn [yf P]. rewrite !map_map.
    replace (map (fun x => nsub (Fin (ny x)) (Fin aN)) ys) with (map Fin (map (fun y => ny y - aN) ys)) by now rewrite map_map.
    rewrite rss_fin by (rewrite map_length; apply Lys). f_equal. unfold flat_ss. rewrite Lys, <- bsum_scal.
    apply bsum_ext. intros i Hi. rewrite (nth_map _ _ _ _ 0) by now rewrite Lys.
    unfold normy, aN, u. pose proof ysc_pos. pose proof (es_nz i Hi). field. repeat split; auto; lra.
  Qed.

  Lemma ones_fin p q : finmat p q (fun _ _ => nofZ 1) (fun _ _ => 1).
  Proof. intros i j _ _. reflexivity. Qed.

  Definition aicX (r q d : R) : XR := aic_of P (Fin r) (Fin q) (Fin d).

  Lemma sum_w_pos : 0 < bsum n (fun i => nth i wl 0).
  Proof.
    rewrite (bsum_ext n _ (fun i => cw * u i)) by apply nth_w. rewrite bsum_scal.
    apply Rmult_lt_0_compat; [apply cw_pos|apply U_pos].
  Qed.

  Lemma offset_coef : exists iv, inv 1 (mmul n (mmul n (fun _ _ => nofZ 1) (wmat P)) (fun _ _ => nofZ 1)) = Ok iv /\
    mvmul n (mmul n (mmul 1 iv (fun _ _ => nofZ 1)) (wmat P)) (vec (yf P)) 0%nat = Fin aN.
  Proof.
    set (S := bsum n (fun i => nth i wl 0)).
    assert (HS : 0 < S) by apply sum_w_pos.
    assert (M : finmat 1 1 (mmul n (mmul n (fun _ _ => nofZ 1) (wmat P)) (fun _ _ => nofZ 1))
                  (mm n (mm n (fun _ _ => 1) (diagR wl)) (fun _ _ => 1))).
    { apply (mmul_fin n 1 1); [|apply ones_fin]. apply (mmul_fin n 1 n); [apply ones_fin|apply W_fin]. }
    assert (MS : mm n (mm n (fun _ _ => 1) (diagR wl)) (fun _ _ => 1) 0%nat 0%nat = S).
    { unfold mm. apply bsum_ext. intros j Hj. rewrite (bsum_diag_l n wl j (fun _ => 1)) by auto. ring. }
    destruct (Hinv 1%nat _ _ M) as (iv & b & Ei & Hb & [R1 _]).
    { intros x Hx i Hi. assert (i = 0%nat) by lia. subst. specialize (Hx 0%nat ltac:(lia)). unfold mv in Hx.
      rewrite bsum_S, bsum_0, MS in Hx. assert (E : S * x 0%nat = 0) by lra. apply Rmult_integral in E as [|]; lra. }
    exists iv. split; auto.
    assert (B0 : b 0%nat 0%nat = / S).
    { specialize (R1 0%nat 0%nat ltac:(lia) ltac:(lia)). unfold mm at 1 in R1. rewrite bsum_S, bsum_0, MS, delta_same in R1.
      assert (E : S * b 0%nat 0%nat = 1) by lra. apply Rmult_eq_reg_l with S; [|lra]. rewrite E. field. lra. }
    rewrite (mvmul_fin n _ (mm n (mm 1 b (fun _ _ => 1)) (diagR wl)) _ (fun i => nth i (map ny ys) 0)).
    - f_equal. rewrite aN_eq. unfold mv. fold S. unfold Rdiv. rewrite Rmult_comm, <- bsum_scal. apply bsum_ext.
      intros j Hj. unfold mm at 1. rewrite (bsum_diag_l n wl j (fun k => mm 1 b (fun _ _ => 1) 0%nat k)) by auto.
      unfold mm. rewrite bsum_S, bsum_0, B0. ring.
    - intros k Hk. apply (mmul_fin n 1 n); try lia; [|apply W_fin].
      apply (mmul_fin 1 1 n); [apply Hb|apply ones_fin].
    - intros k Hk. cbn [yf P]. apply vec_fin. rewrite map_length, Lys. auto.
  Qed.

  Lemma score_offset o d nbr1 mb t : exists t',
    score det solve inv least_squares P o d nbr1 mb (-1) t = Ok t' /\
    b_A t' 0%nat 0%nat = Fin aN /\ (forall i j, (j <> 0)%nat -> b_A t' i j = b_A t i j) /\
    aic t' 0%nat = aicX (flat_ss rows (weighted_mean rows)) 1 3 /\ (forall j, (j <> 0)%nat -> aic t' j = aic t j).
  Proof.
    destruct offset_coef as (iv & Ei & Ea). unfold score. cbn [Z.eqb npts P]. cbv zeta. rewrite Ei. cbn [bind].
    rewrite Ea. eexists. split; [reflexivity|]. cbn [b_A aic Nat.eqb andb]. split; auto. split; [|split].
    - intros i j Hj. destruct (Nat.eqb_spec j 0); [lia|]. now rewrite andb_false_r.
    - rewrite offset_rss. reflexivity.
    - intros j Hj. destruct (Nat.eqb_spec j 0); [lia|]. reflexivity.
  Qed.

  (* ---- the line ---- *)
  Lemma nxs_ascending : ascending (map nx xs).
  Proof.
    apply ascending_sorted. pose proof (xs_sorted rows xs Hxs) as S.
    assert (G : forall l, StronglySorted Rle l -> StronglySorted Rle (map nx l)).
    { induction 1 as [|a l Sl IH F]; simpl; constructor; auto. apply Forall_forall. intros z Hz.
      apply in_map_iff in Hz as (y & <- & Hy). rewrite Forall_forall in F. specialize (F y Hy).
      destruct F as [F|F]; [left; now apply (normx_lt rows xs Huse Hxs)|right; now rewrite F]. }
    now apply G.
  Qed.
  Lemma Wext yn : brk_pt_fit det solve (map Fin (map nx xs)) yn (Some (wmat P)) []
    = brk_pt_fit det solve (map Fin (map nx xs)) yn (fweights (Some (diagR wl))) (map Fin []).
  Proof.
    apply brk_weights_ext. intros i j. rewrite !map_length, Lxs. intros Hi Hj. apply W_fin; auto.
  Qed.
  Definition several : Prop := exists p, In p xs /\ p <> x1.
  Lemma several_norm : several -> exists p, In p (nx x1 :: map nx xr) /\ p <> nx x1.
  Proof.
    intros (p & Hp & Np). exists (nx p). split.
    - change (nx x1 :: map nx xr) with (map nx xs). now apply in_map.
    - intros E. apply (normx_inj rows xs Huse Hxs) in E. auto.
  Qed.
  Lemma det_norm : several -> determined [nx x1] (nx x1 :: map nx xr) (Some (diagR wl)).
  Proof.
    intros Hs. apply determined_line.
    - exact nxs_ascending.
    - change (nx x1 :: map nx xr) with (map nx xs). rewrite map_length, Lxs. apply Lw.
    - exact (wR_pos rows Huse).
    - now apply several_norm.
  Qed.
  Lemma asc1 a : ascending [a].
  Proof. intros i j Hij. cbn [length] in Hij. assert (i = 0%nat) by lia. assert (j = 0%nat) by lia. subst. lra. Qed.

  Lemma line_ss_norm b0 b1 : weighted_ss (Some (diagR wl)) (residuals [nx x1] (nx x1 :: map nx xr) (map ny ys) [b0; b1])
    = mean_of ev * line_ss rows xs (b0 * ysc + y0) (b1 * ysc / xsc).
  Proof.
    rewrite weighted_ss_line.
    - change (nx x1 :: map nx xr) with (map nx xs). rewrite map_length, Lxs. unfold line_ss. rewrite Lys, <- bsum_scal.
      apply bsum_ext. intros i Hi. rewrite nth_w, nth_ny, nth_nx by auto. cbn [nth]. unfold normx at 1. unfold cw, u.
      pose proof ysc_pos. pose proof xsc_pos. pose proof (es_nz i Hi). field. repeat split; auto; lra.
    - exact nxs_ascending.
    - change (nx x1 :: map nx xr) with (map nx xs). rewrite ?map_length, ?Lys, ?Lw, Lxs. reflexivity.
    - rewrite map_length, Lys, <- Lxs. cbn [length]. now rewrite map_length.
  Qed.

  Lemma line_fit : several -> exists b0 b1,
    let c := b0 * ysc + y0 in let s := b1 * ysc / xsc in
    best_line rows xs c s /\
    exists r, brk_pt_fit det solve (xf P) (yf P) (Some (wmat P)) [] = Ok (CVec [Fin b0; Fin b1], map Fin r) /\
      length r = n /\ rss_of P (map Fin r) = Fin (line_ss rows xs c s).
  Proof.
    intros Hs.
    assert (HL : length (nx x1 :: map nx xr) = length (map ny ys)).
    { change (nx x1 :: map nx xr) with (map nx xs). now rewrite !map_length, Lxs, Lys. }
    assert (HW : weights_ok (length (nx x1 :: map nx xr)) (Some (diagR wl))).
    { cbn [weights_ok]. split; [apply sym_diag|]. apply psd_diag; [|apply (wR_pos rows Huse)].
      rewrite HL, map_length, Lys. apply Lw. }
    destruct (fit_optimum det solve Hdet Hsolve (nx x1) (map nx xr) (map ny ys) [] (Some (diagR wl)) HL nxs_ascending (asc1 _) HW (det_norm Hs))
      as (beta & E & Lb & Hopt).
    destruct beta as [|b0 [|b1 [|]]]; try discriminate Lb. exists b0, b1. cbv zeta.
    pose proof ysc_pos as Py. pose proof xsc_pos as Px. pose proof (mean_ev_pos rows Huse) as Pm.
    split.
    - intros c' s'. set (d0 := (c' - y0) / ysc). set (d1 := s' * xsc / ysc).
      assert (Ec : c' = d0 * ysc + y0) by (unfold d0; field; lra).
      assert (Es : s' = d1 * ysc / xsc) by (unfold d1; field; lra).
      destruct (Hopt [d0; d1] eq_refl) as [O1 O2]. rewrite !line_ss_norm, <- Ec, <- Es in O1.
      split; [now apply Rmult_le_reg_l with (mean_of ev)|].
      intros Q. rewrite !line_ss_norm, <- Ec, <- Es, Q in O2. specialize (O2 eq_refl). injection O2 as Q0 Q1.
      rewrite Ec, Es, Q0, Q1. auto.
    - cbn [xf yf P]. rewrite Wext. change (map nx xs) with (nx x1 :: map nx xr). rewrite E.
      eexists. split; [reflexivity|].
      assert (Lr : length (residuals [nx x1] (nx x1 :: map nx xr) (map ny ys) [b0; b1]) = n).
      { unfold residuals. rewrite map_length, combine_length, HL, map_length, Lys. apply Nat.min_id. }
      split; auto. rewrite rss_fin by auto. f_equal.
      assert (Q : weighted_ss (Some (diagR wl)) (residuals [nx x1] (nx x1 :: map nx xr) (map ny ys) [b0; b1])
        = mean_of ev * (ysc ^ 2 * bsum n (fun i => nth i (residuals [nx x1] (nx x1 :: map nx xr) (map ny ys) [b0; b1]) 0 ^ 2 * u i))).
      { unfold weighted_ss. rewrite Lr. cbn [weight].
        set (r := residuals [nx x1] (nx x1 :: map nx xr) (map ny ys) [b0; b1]).
        change (qform n (diagR wl) (fun i => nth i r 0) = mean_of ev * (ysc ^ 2 * bsum n (fun i => nth i r 0 ^ 2 * u i))).
        rewrite qform_diag, <- !bsum_scal. apply bsum_ext. intros i Hi. rewrite nth_w by auto. unfold cw. ring. }
      rewrite line_ss_norm in Q. apply Rmult_eq_reg_l in Q; [|lra]. now symmetry.
  Qed.

  Lemma line_singular : ~ several -> brk_pt_fit det solve (xf P) (yf P) (Some (wmat P)) [] = Ok (CZeroCol 2, yf P).
  Proof.
    intros N. cbn [xf yf P]. rewrite Wext. change (map nx xs) with (nx x1 :: map nx xr).
    rewrite (fit_singular det solve Hdet (nx x1) (map nx xr) (map ny ys) [] (Some (diagR wl))); auto.
    - change (nx x1 :: map nx xr) with (map nx xs). now rewrite !map_length, Lxs, Lys.
    - exact nxs_ascending.
    - apply asc1.
    - apply undetermined_line.
      + exact nxs_ascending.
      + change (nx x1 :: map nx xr) with (map nx xs). rewrite ?map_length, ?Lw, Lxs. reflexivity.
      + intros z Hz. change (nx x1 :: map nx xr) with (map nx xs) in Hz. apply in_map_iff in Hz as (p & <- & Hp).
        destruct (Req_EM_T p x1) as [->|]; auto. exfalso. apply N. exists p. auto.
  Qed.
End Scores.
