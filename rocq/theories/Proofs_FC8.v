(* Proofs for fit_cond: the returned constant or line *)
From Coq Require Import String ZArith List Bool Reals Lra Lia Sorted Permutation FunctionalExtensionality.
From Flocq Require Import Core.Raux.
From Verif Require Import Num Np NumFacts NpFacts Utilities Finders Stats FitCond Spec_Utilities Spec_Finders Spec_Stats
  Spec_FitCond LinR LeastSq Proofs_Utilities Proofs_Besthist Proofs_Thetas2 Proofs_Stats1 Proofs_Fit Proofs_FC1 Proofs_FC2 Proofs_FC3 Proofs_FC4 Proofs_FC5 Proofs_FC6 Proofs_FC7.
Import ListNotations.
Local Open Scope R_scope.
Local Open Scope list_scope.

(* ---- the criterion ---- *)
Section Criterion.
  Variables (p : @prep XR) (n : nat) (v : R).
  Hypothesis Hn : npts p = n.
  Hypothesis Hnp : (0 < n)%nat.
  Hypothesis Hv : ndf p = Fin v.
  Hypothesis Hv4 : 4 < v.

  Lemma aic_pos r q : 0 < r -> v - q - 2 <> 0 -> aic_of p (Fin r) (Fin q) (Fin (q + 2)) = Fin (criterion n v r q).
  Proof.
    intros Hr Hq. unfold aic_of, criterion. rewrite Hv, Hn. assert (0 < INR n) by (apply lt_0_INR; lia).
    change (nofZ (Z.of_nat n)) with (Fin (IZR (Z.of_nat n))). rewrite <- INR_IZR_INZ. rewrite ndiv_fin by lra.
    cbn [nlog XR_NumT]. destruct (Rlt_dec 0 (r / INR n)) as [|N].
    2:{ exfalso. apply N. apply Rmult_lt_0_compat; auto. now apply Rinv_0_lt_compat. }
    cbn [nmul nadd nsub XR_Num xmul xadd xsub]. rewrite ndiv_fin by lra. cbn [xadd]. f_equal. f_equal. f_equal. ring.
  Qed.
  Lemma aic_zero q : v - q - 2 <> 0 -> aic_of p (Fin 0) (Fin q) (Fin (q + 2)) = NInf.
  Proof.
    intros Hq. unfold aic_of. rewrite Hv, Hn. assert (0 < INR n) by (apply lt_0_INR; lia).
    change (nofZ (Z.of_nat n)) with (Fin (IZR (Z.of_nat n))). rewrite <- INR_IZR_INZ. rewrite ndiv_fin by lra.
    cbn [nlog XR_NumT]. replace (0 / INR n) with 0 by (field; lra).
    destruct (Rlt_dec 0 0); [lra|]. destruct (Req_EM_T 0 0); [|lra].
    cbn [nmul nadd nsub XR_Num xmul xadd xsub]. rewrite ndiv_fin by lra. unfold xinf_mul. destruct (Rlt_dec 0 v); [|lra]. reflexivity.
  Qed.
  Lemma aic_compare r0 r1 : 0 <= r0 -> 0 <= r1 ->
    let a0 := aic_of p (Fin r0) (Fin 1) (Fin 3) in let a1 := aic_of p (Fin r1) (Fin 2) (Fin 4) in
    nisnan a0 = false /\ nisnan a1 = false /\ (nltb a1 a0 = true <-> prefers_line n v r0 r1).
  Proof.
    intros H0 H1. cbv zeta. replace (Fin 3) with (Fin (1 + 2)) by (f_equal; ring). replace (Fin 4) with (Fin (2 + 2)) by (f_equal; ring).
    unfold prefers_line.
    destruct (Req_EM_T r0 0) as [->|N0]; destruct (Req_EM_T r1 0) as [->|N1];
      rewrite ?(aic_zero 1), ?(aic_zero 2) by lra;
      rewrite ?(aic_pos r0 1), ?(aic_pos r1 2) by lra; cbn [nisnan nltb XR_Num xltb]; (split; [reflexivity|split; [reflexivity|]]).
    - split; [discriminate|]. intros [H _]. lra.
    - split; [discriminate|]. intros [H _]. lra.
    - split; auto. intros _. split; [lra|auto].
    - rewrite Rltb_true. split; [intros H; split; [lra|]; right; split; [lra|auto]|]. intros [_ [E|[_ L]]]; [congruence|auto].
  Qed.
End Criterion.

(* whatever the values, the fit returns coefficients when the positions determine them *)
Lemma fit_any det solve (Hdet : det_ok det) (Hsolve : solve_ok solve) x0 xr breaks w0 yn :
  length yn = length (x0 :: xr) -> ascending (x0 :: xr) -> ascending (x0 :: breaks) ->
  determined (x0 :: breaks) (x0 :: xr) (Some w0) ->
  exists l, brk_pt_fit det solve (map Fin (x0 :: xr)) yn (fweights (Some w0)) (map Fin breaks) = Ok l /\ exists a, fst l = CVec a.
Proof.
  intros L Hx Hb D. set (zs := map (fun _ => 0) (x0 :: xr)).
  assert (Lz : length (x0 :: xr) = length zs) by (unfold zs; now rewrite map_length).
  pose proof (ls_fin x0 xr zs breaks (Some w0) Lz Hx Hb) as LS.
  pose proof (design_tr_fin x0 xr zs breaks Lz Hx Hb) as TR.
  unfold determined in D. cbn [length] in D. replace (S (S (length breaks))) with (length breaks + 2)%nat in D by lia.
  unfold brk_pt_fit. rewrite !map_length, L, Nat.eqb_refl. cbn [negb map].
  unfold ls in LS. cbn [fweights option_map] in LS |- *.
  destruct (Hdet _ _ _ LS) as (d & Ed & Hd). cbn [map] in Ed. rewrite Ed.
  apply Hd in D as D'. change (neqb (Fin d) (nofZ 0)) with (Reqb d 0). rewrite (proj2 (Reqb_false d 0) D').
  destruct (Hsolve _ _ _ _ _ _ LS TR D) as (X & x & EX & _). cbn [map] in EX. rewrite EX. cbn [bind].
  eexists. split; [reflexivity|]. eexists. reflexivity.
Qed.

Section Result.
  Variable det : nat -> (nat -> nat -> XR) -> XR.
  Variable solve : nat -> nat -> (nat -> nat -> XR) -> (nat -> nat -> XR) -> res (nat -> nat -> XR).
  Variable inv : nat -> (nat -> nat -> XR) -> res (nat -> nat -> XR).
  Variable least_squares : (list XR -> res (list XR)) -> list XR -> res (list (list XR) * list XR).
  Variable rng : Type.
  Variable randn : nat -> rng -> list XR * rng.
  Hypothesis Hdet : det_ok det.
  Hypothesis Hsolve : solve_ok solve.
  Hypothesis Hinv : inv_ok inv.
  Hypothesis Hrand : randn_ok randn.

  Variables (rows : list row) (lvcov : nat -> nat -> XR) (x1 : R) (xr us vs : list R) (v : R).
  Notation xs := (x1 :: xr).
  Hypothesis Huse : usable rows.
  Hypothesis Hxs : sorted_positions rows xs.
  Hypothesis Hus : distinct_of (map fst rows) us.
  Hypothesis Hvs : distinct_of xs vs.
  Notation n := (nobs rows).
  Notation ys := (values rows).
  Notation es := (errors rows).
  Notation x0 := (x0R xs).
  Notation xsc := (xscR xs).
  Notation y0 := (y0R rows).
  Notation ysc := (yscR rows).
  Notation wl := (wR rows).
  Notation nx := (normx xs).
  Notation ny := (normy rows).
  Hypothesis Hv : eff_dof n (lvR rows lvcov) = Fin v.
  Notation P := (P rows lvcov x1 xr us vs v).
  Notation aN := (aN rows).

  Lemma us_nonempty : us <> [].
  Proof.
    destruct Huse as [N _]. destruct Hus as [_ E]. destruct rows as [|r rs]; [destruct (N eq_refl)|].
    intros Q. rewrite Q in E. apply (E (fst r)). simpl. auto.
  Qed.
  Lemma xs_out l : map (fun w => nadd (nmul w (Fin xsc)) (Fin x0)) (map Fin (map nx l)) = map Fin l.
  Proof.
    rewrite !map_map. apply map_ext. intros a. cbn [nadd nmul XR_Num xadd xmul]. f_equal. unfold normx.
    pose proof (xsc_pos rows x1 xr Huse Hxs). field. lra.
  Qed.

  Lemma design_col0 (b l : list XR) i : design b l i 0%nat = Fin 1.
  Proof. reflexivity. Qed.

  Lemma param_var_1 e : (forall i, e i 0%nat = Fin 1) -> exists p, param_var inv P 1 e = Ok p.
  Proof.
    intros He. unfold param_var. cbn [npts Proofs_FC5.P].
    assert (M : finmat 1 1 (mmul n (mmul n (transp e) (wmat P)) e) (mm n (mm n (fun _ _ => 1) (diagR wl)) (fun _ _ => 1))).
    { apply (mmul_fin n 1 1).
      - apply (mmul_fin n 1 n); [|apply W_fin]. intros i j Hi Hj. assert (i = 0%nat) by lia. subst. unfold transp. apply He.
      - intros i j Hi Hj. assert (j = 0%nat) by lia. subst. apply He. }
    destruct (Hinv 1%nat _ _ M) as (iv & b & Ei & _).
    { intros x Hx i Hi. assert (i = 0%nat) by lia. subst. specialize (Hx 0%nat ltac:(lia)). unfold mv in Hx.
      rewrite bsum_S, bsum_0 in Hx.
      assert (MS : mm n (mm n (fun _ _ => 1) (diagR wl)) (fun _ _ => 1) 0%nat 0%nat = bsum n (fun i => nth i wl 0)).
      { unfold mm. apply bsum_ext. intros j Hj. rewrite (bsum_diag_l n wl j (fun _ => 1)) by auto. ring. }
      rewrite MS in Hx. pose proof (sum_w_pos rows x1 xr Huse Hxs).
      assert (E : bsum n (fun i => nth i wl 0) * x 0%nat = 0) by lra. apply Rmult_integral in E as [|]; lra. }
    rewrite Ei. cbn [bind]. eexists. reflexivity.
  Qed.

  Lemma param_var_2 : several x1 xr -> exists p, param_var inv P 2 (design (hd NaN (xf P) :: []) (xf P)) = Ok p.
  Proof.
    intros Hs. unfold param_var. cbn [npts xf Proofs_FC5.P map hd].
    change (Fin (nx x1) :: map Fin (map nx xr)) with (map Fin (nx x1 :: map nx xr)).
    change [Fin (nx x1)] with (map Fin [nx x1]).
    assert (E : finmat n 2 (design (map Fin [nx x1]) (map Fin (nx x1 :: map nx xr))) (Fmat [nx x1] (nx x1 :: map nx xr))).
    { intros i c Hi Hc. apply design_value; auto.
      - apply asc1.
      - exact (nxs_ascending rows x1 xr Huse Hxs).
      - change (nx x1 :: map nx xr) with (map nx xs). now rewrite map_length, (Lxs rows x1 xr Hxs). }
    set (e := design _ _) in *.
    assert (M : finmat 2 2 (mmul n (mmul n (transp e) (wmat P)) e)
                  (mm n (mm n (tr (Fmat [nx x1] (nx x1 :: map nx xr))) (diagR wl)) (Fmat [nx x1] (nx x1 :: map nx xr)))).
    { apply (mmul_fin n 2 2); auto. apply (mmul_fin n 2 n); [|apply W_fin]. intros i j Hi Hj. unfold transp, tr. now apply E. }
    destruct (Hinv 2%nat _ _ M) as (iv & b & Ei & _).
    { pose proof (det_norm rows x1 xr Huse Hxs Hs) as D. unfold determined in D. rewrite normal_matrix_normal in D.
      cbn [weight] in D. change (nx x1 :: map nx xr) with (map nx xs) in D at 1. rewrite map_length, (Lxs rows x1 xr Hxs) in D. exact D. }
    rewrite Ei. cbn [bind]. eexists. reflexivity.
  Qed.

  Lemma evaluate_offset o nbr1 t g : b_A t 0%nat 0%nat = Fin aN ->
    exists f, evaluate det solve inv least_squares rng randn P o nbr1 t 1 g = (Ok f, g) /\ offset_result rows us v f.
  Proof.
    intros Ha. unfold evaluate. cbn [Nat.ltb Nat.leb].
    destruct (param_var_1 (design (hd NaN (xf P) :: []) (xf P)) (fun i => design_col0 _ _ i)) as ([p1 p2] & Ep).
    change (@nnan XR _) with NaN. rewrite Ep. cbn [Nat.eqb]. eexists. split; [reflexivity|]. cbn [Nat.sub].
    assert (At : tab 1 (fun i => b_A t i 0%nat) = [Fin aN]) by (unfold tab; cbn; now rewrite Ha).
    rewrite At.
    assert (Out : nadd (nmul (Fin aN) (Fin ysc)) (Fin y0) = Fin (weighted_mean rows)).
    { cbn [nadd nmul XR_Num xadd xmul]. f_equal. unfold Proofs_FC5.aN. pose proof (ysc_pos rows). field. lra. }
    unfold offset_result. cbn [f_xfit f_ndf f_breaks f_coef f_condslope f_time_deriv f_time_deriv_err xfit x_scale x_0 y_scale y_0 ndf Proofs_FC5.P map tl].
    split; [apply xs_out|]. split; auto. split; auto. split.
    { f_equal. unfold vec. cbn [nth]. exact Out. }
    split.
    - rewrite !map_length. unfold tab. rewrite map_map. apply (nth_ext _ _ NaN NaN); [now rewrite !map_length, seq_length|].
      intros i Hi. rewrite map_length, seq_length in Hi.
      rewrite (nth_map _ _ _ _ 0%nat) by now rewrite seq_length. rewrite (nth_map _ us _ _ 0) by auto.
      rewrite <- Out. f_equal. f_equal. unfold mvmul. cbn [seq map]. rewrite design_col0. unfold vec. cbn [nth].
      change (nsum [nmul (Fin 1) (Fin aN)]) with (Fin (1 * aN + 0)) || (unfold nsum; cbn). f_equal. ring.
    - split; now rewrite !map_map.
  Qed.

  Lemma fit_noise yn : several x1 xr -> length yn = n ->
    exists l, brk_pt_fit det solve (xf P) yn (Some (wmat P)) [] = Ok l /\ exists a, fst l = CVec a.
  Proof.
    intros Hs L. cbn [xf Proofs_FC5.P]. rewrite (Wext det solve rows lvcov x1 xr us vs v Hxs).
    apply (fit_any det solve Hdet Hsolve (nx x1) (map nx xr) [] (diagR wl)).
    - rewrite L. change (nx x1 :: map nx xr) with (map nx xs). rewrite map_length. symmetry. apply (Lxs rows x1 xr Hxs).
    - exact (nxs_ascending rows x1 xr Huse Hxs).
    - apply asc1.
    - exact (det_norm rows x1 xr Huse Hxs Hs).
  Qed.

  Lemma mc_line k o nbr1 e : several x1 xr -> forall yfit err ug g, exists err' g',
    mc_loop det solve least_squares rng randn k P o nbr1 2 [] e yfit err ug g = (Ok err', g') /\ (length err = length yfit -> length err' = length yfit).
  Proof.
    intros Hs. induction k as [|k IH]; intros yfit err ug g; cbn [mc_loop]; [eauto|].
    pose proof (Hrand (length (yf P)) g) as Lz. destruct (randn (length (yf P)) g) as [zs g'] eqn:Er. cbn [fst] in Lz.
    unfold mc_coefs. cbn [Nat.eqb].
    match goal with |- context [brk_pt_fit det solve (xf P) ?Y _ _] => set (yn := Y) end.
    assert (Ly : length (yf P) = n) by (cbn [yf Proofs_FC5.P]; rewrite !map_length; apply Lys).
    assert (Ln : length (nerr P) = n) by (cbn [nerr Proofs_FC5.P]; rewrite !map_length; apply Les).
    destruct (fit_noise yn Hs) as (l & El & a & Ea).
    { unfold yn. rewrite map_length, !combine_length, Ly, Ln, Lz, Ly, !Nat.min_id. reflexivity. }
    rewrite El. cbn [bind]. rewrite Ea. cbn [coef_list].
    match goal with |- context [mc_loop _ _ _ _ _ k P o nbr1 2 [] e yfit ?E1 ?U g'] =>
      destruct (IH yfit E1 U g') as (err' & g2 & E2 & L2) end.
    exists err', g2. split; [exact E2|]. intros _. apply L2. now rewrite map_length, seq_length.
  Qed.

  Lemma evaluate_line o nbr1 t g b0 b1 z : several x1 xr -> o_nloops o = VInt z -> z <> 0%Z ->
    b_A t 0%nat 1%nat = Fin b0 -> b_A t 1%nat 1%nat = Fin b1 ->
    exists f g', evaluate det solve inv least_squares rng randn P o nbr1 t 2 g = (Ok f, g') /\
      line_result rows xs us v (b0 * ysc + y0) (b1 * ysc / xsc) f.
  Proof.
    intros Hs Hl Hz A0 A1. unfold evaluate. cbn [Nat.ltb Nat.leb].
    destruct (param_var_2 Hs) as ([p1 p2] & Ep). change (@nnan XR _) with NaN. rewrite Ep. cbn [Nat.eqb]. rewrite Hl.
    match goal with |- context [mc_loop ?a ?b ?c ?d ?e (Z.to_nat z) P o nbr1 2 [] ?E ?Y ?R0 ?U g] =>
      destruct (mc_line (Z.to_nat z) o nbr1 E Hs Y R0 U g) as (err' & g2 & E2 & _) end.
    rewrite E2. destruct (Z.eqb_spec z 0); [contradiction|].
    eexists. exists g2. split; [reflexivity|]. clear E2. cbn [Nat.sub].
    assert (At : tab 2 (fun i => b_A t i 1%nat) = [Fin b0; Fin b1]) by (unfold tab; cbn; now rewrite A0, A1).
    rewrite At. unfold line_result.
    cbn [f_xfit f_ndf f_breaks f_coef f_condslope f_time_deriv f_time_deriv_err xfit x_scale x_0 y_scale y_0 ndf Proofs_FC5.P map tl].
    pose proof (ysc_pos rows) as Py. pose proof (xsc_pos rows x1 xr Huse Hxs) as Px.
    assert (Es : ndiv (nmul (Fin b1) (Fin ysc)) (Fin xsc) = Fin (b1 * ysc / xsc)).
    { cbn [nmul XR_Num xmul]. apply ndiv_fin. lra. }
    rewrite Es. split; [apply xs_out|]. split; auto. split; auto. split.
    { f_equal. }
    split.
    - rewrite !map_length. unfold tab. rewrite map_map. apply (nth_ext _ _ NaN NaN); [now rewrite !map_length, seq_length|].
      intros i Hi. rewrite map_length, seq_length in Hi.
      rewrite (nth_map _ _ _ _ 0%nat) by now rewrite seq_length. rewrite (nth_map _ us _ _ 0) by auto.
      rewrite seq_nth by auto. cbn [Nat.add].
      destruct us as [|u0 ur] eqn:Eus; [simpl in Hi; lia|]. rewrite <- Eus in *. 
      assert (Hh : hd NaN (map Fin (map nx us)) = Fin (nx u0)) by now rewrite Eus.
      rewrite Hh.
      assert (Sus : StronglySorted Rlt us) by apply Hus.
      assert (Aus : ascending (map nx us)).
      { apply ascending_sorted. pose proof (sorted_normx rows xs Huse Hxs us Sus) as S2.
        clear - S2. induction S2; constructor; auto. eapply Forall_impl; [|eauto]. intros; cbv beta in *. lra. }
      assert (Ev : mvmul 2 (design [Fin (nx u0)] (map Fin (map nx us))) (vec [Fin b0; Fin b1]) i
              = Fin (b0 + b1 * (nx (nth i us 0) - nx u0))).
      { rewrite (mvmul_fin 2 _ (fun i c => basis [nx u0] c (nth i (map nx us) 0)) _ (fun c => nth c [b0; b1] 0)).
        - f_equal. unfold mv. rewrite !bsum_S, bsum_0. cbn [basis nth length]. change (Nat.ltb 1 1) with false. cbn iota.
          rewrite (nth_map _ _ _ _ 0) by auto. rewrite Rmax_right; [ring|].
          assert (nx u0 <= nx (nth i us 0)); [|lra].
          pose proof (Aus 0%nat i ltac:(rewrite map_length; lia)) as Q. rewrite !(nth_map _ _ _ _ 0) in Q by (rewrite ?Eus in *; simpl in *; lia).
          rewrite Eus in Q at 1. cbn [nth] in Q. exact Q.
        - intros c Hc. change [Fin (nx u0)] with (map Fin [nx u0]). apply design_value; auto; [apply asc1|]. now rewrite map_length.
        - intros c Hc. destruct c as [|[|c]]; try reflexivity; lia. }
      rewrite Ev. cbn [nmul nadd XR_Num xmul xadd]. f_equal.
      replace (hd 0 us) with u0 by now rewrite Eus. unfold normx. field. lra.
    - unfold vec. cbn [nth]. rewrite !map_map. apply map_ext. intros a. cbn [nmul nofZ XR_Num xmul]. f_equal. ring.
  Qed.
End Result.
