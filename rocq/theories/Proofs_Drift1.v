(* Fits of data that lie on a constant or on a line *)
From Coq Require Import String ZArith List Bool Reals Lra Lia Sorted Permutation.
From Verif Require Import Num Np NumFacts NpFacts Utilities Finders Stats FitCond Spec_Utilities Spec_Finders Spec_Stats Spec_FitCond LinR LeastSq
  Proofs_FC1 Proofs_FC3 Proofs_FC9 Proofs_FC12.
Import ListNotations.
Local Open Scope list_scope.

(* ---- the maximum given as a float ---- *)
Section Float.
  Context {T : Type} {HN : Num T} {HT : NumT T}.
  Notation mat := (nat -> nat -> T).
  Variable det : nat -> mat -> T.
  Variable solve : nat -> nat -> mat -> mat -> res mat.
  Variable inv : nat -> mat -> res mat.
  Variable least_squares : (list T -> res (list T)) -> list T -> res (list (list T) * list T).
  Variable rng : Type.
  Variable randn : nat -> rng -> list T * rng.
  Notation call := (fit_cond det solve inv least_squares rng randn).
  Definition with_max (w : pyval T) (o : @opts T) : @opts T := mkOpts (o_init o) w (o_nbr1 o) (o_nloops o) (o_breaks o) (o_set o).

  Lemma score_all_max w p o d nbr1 mb ks : forall t,
    score_all det solve inv least_squares p (with_max w o) d nbr1 mb ks t = score_all det solve inv least_squares p o d nbr1 mb ks t.
  Proof.
    induction ks as [|k ks IH]; intros t; cbn [score_all]; auto.
    change (score det solve inv least_squares p (with_max w o) d nbr1 mb k t) with (score det solve inv least_squares p o d nbr1 mb k t).
    destruct (score _ _ _ _ _ _ _ _ _ _ _) as [t1|]; cbn [bind]; auto.
  Qed.
  Lemma mc_loop_max w k p o nbr1 best breaks e : forall yfit err ug g,
    mc_loop det solve least_squares rng randn k p (with_max w o) nbr1 best breaks e yfit err ug g
    = mc_loop det solve least_squares rng randn k p o nbr1 best breaks e yfit err ug g.
  Proof.
    induction k as [|k IH]; intros; cbn [mc_loop]; auto. destruct (randn _ g) as [z g']. unfold mc_coefs. cbn [o_set with_max].
    destruct (bind _ _) as [a|]; auto.
  Qed.
  Lemma evaluate_max w p o nbr1 t best g :
    evaluate det solve inv least_squares rng randn p (with_max w o) nbr1 t best g
    = evaluate det solve inv least_squares rng randn p o nbr1 t best g.
  Proof.
    unfold evaluate. destruct (param_var _ _ _ _) as [[p1 p2]|]; auto. cbn [o_nloops with_max].
    destruct (Nat.eqb best 1); auto. destruct (o_nloops o); auto. now rewrite mc_loop_max.
  Qed.
  Lemma fit_float x y e lv m z g : py_int_of (VFlt m) = Ok z ->
    call x y e lv [VStr "max_no_breaks"; VFlt m] g = call x y e lv [VStr "max_no_breaks"; VInt z] g.
  Proof.
    intros Ez. unfold fit_cond. destruct (good_points x y) as [|a0 r0]; auto. cbv zeta. set (p := prepare x y e lv).
    change (parse_args p [VStr "max_no_breaks"; VInt z]) with (Ok (with_max (VInt z) (@default_opts T))).
    change (parse_args p [VStr "max_no_breaks"; VFlt m]) with (Ok (with_max (VFlt m) (@default_opts T))).
    cbn [bind]. change (o_max (with_max (VFlt m) default_opts)) with (VFlt m). change (o_max (with_max (VInt z) default_opts)) with (@VInt T z).
    rewrite Ez. cbn [py_int_of bind]. destruct (dims_of z) as [d|]; [|reflexivity]. cbn [bind].
    set (t0 := mkTables _ _ _ _ _). change (mkTables _ _ _ _ (o_breaks (with_max (VInt z) default_opts))) with t0.
    change (setup det solve p (with_max (VInt z) default_opts) d z t0) with (setup det solve p (with_max (VFlt m) default_opts) d z t0).
    destruct (setup _ _ _ _ _ _ _) as [[[n1 m1] t1]|]; [|reflexivity]. cbn [bind].
    change (candidates p (with_max (VInt z) default_opts) n1 m1) with (candidates p (with_max (VFlt m) default_opts) n1 m1).
    destruct (candidates _ _ _ _) as [[pb n2] m2]. rewrite !score_all_max.
    destruct (score_all _ _ _ _ _ _ _ _ _ _ _) as [t2|]; [|reflexivity]. cbn [bind].
    change (choose (with_max (VInt z) default_opts) d pb n2 m2 t2) with (choose (with_max (VFlt m) default_opts) d pb n2 m2 t2).
    destruct (choose _ _ _ _ _ _) as [best|]; [|reflexivity]. cbn [bind]. now rewrite !evaluate_max.
  Qed.
  (* a fit presupposes a number *)
  Lemma fit_max x y e lv m g f g' : call x y e lv [VStr "max_no_breaks"; VFlt m] g = (Ok (Fitted f), g') ->
    exists z, py_int_of (VFlt m) = Ok z /\ (-1 <= z)%Z.
  Proof.
    unfold fit_cond. destruct (good_points x y) as [|a0 r0]; [discriminate|]. cbv zeta. set (p := prepare x y e lv).
    change (parse_args p [VStr "max_no_breaks"; VFlt m]) with (Ok (with_max (VFlt m) (@default_opts T))). cbn [bind].
    change (o_max (with_max (VFlt m) default_opts)) with (VFlt m).
    destruct (py_int_of (VFlt m)) as [z|] eqn:Ez; [|discriminate]. cbn [bind]. intros E. exists z. split; [reflexivity|].
    unfold dims_of in E. destruct (Z.eqb_spec z (-1)); [lia|]. destruct (Z.ltb_spec z 0); [discriminate|lia].
  Qed.

  (* only the valid samples count *)
  Lemma fit_valid_only x y e y' e' lv args g : good_points x y = good_points x y' ->
    (forall i, In i (good_points x y) -> nth i y nnan = nth i y' nnan /\ nth i e nnan = nth i e' nnan) ->
    call x y e lv args g = call x y' e' lv args g.
  Proof.
    intros G V.
    assert (P : prepare x y e lv = prepare x y' e' lv).
    { unfold prepare. rewrite <- G. cbv zeta.
      replace (take nnan y' (good_points x y)) with (take nnan y (good_points x y)) by (apply map_ext_in; intros i Hi; apply V, Hi).
      replace (take nnan e' (good_points x y)) with (take nnan e (good_points x y)) by (apply map_ext_in; intros i Hi; apply V, Hi). reflexivity. }
    unfold fit_cond. rewrite <- G, P. reflexivity.
  Qed.
End Float.

Local Open Scope R_scope.

Lemma pow2_gt_0 x : x <> 0 -> 0 < x ^ 2.
Proof. intros N. rewrite <- Rsqr_pow2. now apply Rlt_0_sqr. Qed.
Lemma bsum_const0 n : bsum n (fun _ => 0) = 0.
Proof. induction n as [|n IH]; [reflexivity|]. rewrite bsum_S, IH. lra. Qed.

Section Rows.
  Variables (rows : list row).
  Hypothesis Huse : usable rows.
  Let n := length (values rows).
  Lemma err_nz i : (i < n)%nat -> nth i (errors rows) 0 <> 0.
  Proof. intros Hi. apply Huse, nth_In. unfold errors, n, values in *. rewrite map_length in *. exact Hi. Qed.
  Lemma weight_pos i : (i < n)%nat -> 0 < 1 / nth i (errors rows) 0 ^ 2.
  Proof. intros Hi. apply Rdiv_lt_0_compat; [lra|]. pose proof (pow2_gt_0 _ (err_nz i Hi)). exact H. Qed.
  Lemma n_positive : (0 < n)%nat.
  Proof. unfold n, values. rewrite map_length. destruct Huse as (N & _). destruct (valid rows); [congruence|cbn; lia]. Qed.
  Lemma weights_pos : 0 < bsum n (fun i => 1 / nth i (errors rows) 0 ^ 2).
  Proof.
    assert (H : forall i, (i < n)%nat -> 0 <= 1 / nth i (errors rows) 0 ^ 2) by (intros i Hi; left; apply weight_pos, Hi).
    destruct (Rle_lt_or_eq_dec _ _ (bsum_nonneg _ _ H)) as [L|E]; [exact L|].
    pose proof (bsum_zero_each _ _ H (eq_sym E) 0%nat n_positive). pose proof (weight_pos 0%nat n_positive). lra.
  Qed.
  (* values that are all equal *)
  Lemma mean_of_equal k : (forall y, In y (values rows) -> y = k) -> weighted_mean rows = k.
  Proof.
    intros E. unfold weighted_mean. fold n.
    replace (bsum n (fun i => nth i (values rows) 0 / nth i (errors rows) 0 ^ 2)) with (k * bsum n (fun i => 1 / nth i (errors rows) 0 ^ 2)).
    - field. pose proof weights_pos. lra.
    - rewrite <- bsum_scal. apply bsum_ext. intros i Hi. rewrite (E (nth i (values rows) 0)) by (apply nth_In; exact Hi). field. apply err_nz, Hi.
  Qed.
  Lemma flat_of_equal k : (forall y, In y (values rows) -> y = k) -> flat_ss rows k = 0.
  Proof.
    intros E. unfold flat_ss. fold n. rewrite (bsum_ext n _ (fun _ => 0)).
    - apply bsum_const0.
    - intros i Hi. rewrite (E (nth i (values rows) 0)) by (apply nth_In; exact Hi). field. apply err_nz, Hi.
  Qed.
  Lemma flat_zero_equal k : flat_ss rows k = 0 -> forall y, In y (values rows) -> y = k.
  Proof.
    intros E y Hy. apply (In_nth _ _ 0) in Hy as (i & Hi & <-). unfold flat_ss in E.
    assert (Z : (nth i (values rows) 0 - k) ^ 2 / nth i (errors rows) 0 ^ 2 = 0).
    { apply (bsum_zero_each (length (values rows)) (fun i => (nth i (values rows) 0 - k) ^ 2 / nth i (errors rows) 0 ^ 2)); auto.
      intros j Hj. apply Rmult_le_pos; [apply pow2_ge_0|]. left. apply Rinv_0_lt_compat, pow2_gt_0, err_nz, Hj. }
    pose proof (pow2_gt_0 _ (err_nz i Hi)) as W. apply Rmult_integral in Z as [Z|Z].
    - assert (nth i (values rows) 0 - k = 0) by (apply Rsqr_0_uniq; unfold Rsqr; lra). lra.
    - pose proof (Rinv_0_lt_compat _ W). lra.
  Qed.
  (* values on a line *)
  Lemma line_of_line xs a b : (forall i, (i < n)%nat -> nth i (values rows) 0 = a + b * nth i xs 0) ->
    line_ss rows xs (a + b * nth 0 xs 0) b = 0.
  Proof.
    intros E. unfold line_ss. fold n. rewrite (bsum_ext n _ (fun _ => 0)).
    - apply bsum_const0.
    - intros i Hi. rewrite E by exact Hi. field. apply err_nz, Hi.
  Qed.
End Rows.

Section Fits.
  Variable det : nat -> (nat -> nat -> XR) -> XR.
  Variable solve : nat -> nat -> (nat -> nat -> XR) -> (nat -> nat -> XR) -> res (nat -> nat -> XR).
  Variable inv : nat -> (nat -> nat -> XR) -> res (nat -> nat -> XR).
  Variable least_squares : (list XR -> res (list XR)) -> list XR -> res (list (list XR) * list XR).
  Variable rng : Type.
  Variable randn : nat -> rng -> list XR * rng.
  Hypothesis Hdet : det_ok det.
  Hypothesis Hsolve : solve_ok solve.
  Hypothesis Hinv : inv_ok inv.
  Hypothesis Hrand : randn_ok randn.
  Variables (rows : list row) (lvcov : nat -> nat -> XR) (us : list R) (v : R).
  Hypothesis Huse : usable rows.
  Hypothesis Hus : distinct_of (map fst rows) us.
  Hypothesis Heff : effective_number rows lvcov v.
  Notation here m := (fit_cond det solve inv least_squares rng randn (col_x rows) (col_y rows) (col_e rows) lvcov [VStr "max_no_breaks"; VFlt m]).

  Lemma name_ok : @named XR "max_no_breaks"%string (VStr "max_no_breaks"). Proof. eexists. split; reflexivity. Qed.

  Lemma equal_fit k m g f g' : (forall y, In y (values rows) -> y = k) -> here m g = (Ok (Fitted f), g') -> offset_result rows us v f.
  Proof.
    intros E EF. pose proof EF as EM. apply fit_max in EM as (z & Ez & Hz). rewrite (fit_float _ _ _ _ _ _ _ _ _ _ _ _ _ Ez) in EF.
    destruct (Z_lt_le_dec z 0) as [L|L]; [|destruct (Rlt_le_dec v 5) as [V|V]].
    - destruct (choice_constant det solve inv least_squares rng randn rows lvcov us v (VStr "max_no_breaks") z g) as (f' & E' & O); auto using name_ok; [lia|].
      rewrite E' in EF. injection EF as -> _. exact O.
    - destruct (choice_constant det solve inv least_squares rng randn rows lvcov us v (VStr "max_no_breaks") z g) as (f' & E' & O); auto using name_ok.
      rewrite E' in EF. injection EF as -> _. exact O.
    - destruct (sorted_positions_exists rows) as (xs & Hxs).
      assert (SP : spread rows \/ ~ spread rows) by apply Classical_Prop.classic. destruct SP as [SP|SP].
      + destruct (choice_line det solve inv least_squares rng randn rows lvcov xs us v (VStr "max_no_breaks") z) as (c & s & _ & K & _); auto using name_ok.
        cbv zeta in K. destruct (K g f g' EF) as [((R0 & _) & _)|(_ & O)]; [|exact O].
        rewrite (mean_of_equal rows Huse k E), (flat_of_equal rows Huse k E) in R0. lra.
      + rewrite (choice_no_line det solve inv least_squares rng randn rows lvcov v (VStr "max_no_breaks") z g) in EF; auto using name_ok. discriminate.
  Qed.

  Lemma line_fit a b m z g f g' : py_int_of (VFlt m) = Ok z -> ascending (map fst (valid rows)) -> (forall q, In q (valid rows) -> fst (snd q) = a + b * fst q) ->
    here m g = (Ok (Fitted f), g') ->
    ((0 <= z)%Z /\ 5 <= v -> f_condslope f = map (fun u => Fin (a + b * (u + (hd 0 (map fst (valid rows)) - hd 0 us)))) us /\ f_time_deriv f = map (fun _ => Fin b) us) /\
    (z = (-1)%Z \/ v < 5 -> offset_result rows us v f).
  Proof.
    intros Ez A L EF. pose proof EF as EM. apply fit_max in EM as (z' & Ez' & Hz). assert (z' = z) as -> by congruence.
    rewrite (fit_float _ _ _ _ _ _ _ _ _ _ _ _ _ Ez) in EF. set (xs := map fst (valid rows)) in *.
    assert (Hxs : sorted_positions rows xs) by (split; [exact A|apply Permutation_refl]).
    split.
    - intros (H0 & H5). assert (SP : spread rows \/ ~ spread rows) by apply Classical_Prop.classic. destruct SP as [SP|SP].
      + destruct (choice_line det solve inv least_squares rng randn rows lvcov xs us v (VStr "max_no_breaks") z) as (c & s & B & K & _); auto using name_ok.
        assert (E : forall i, (i < length (values rows))%nat -> nth i (values rows) 0 = a + b * nth i xs 0).
        { intros i Hi. unfold values, xs in *. rewrite map_length in Hi. rewrite (nth_indep (map (fun v => fst (snd v)) (valid rows)) 0 (fst (snd (0, (0, 0))))) by (rewrite map_length; exact Hi).
          rewrite (map_nth (fun v => fst (snd v))). rewrite (nth_indep (map fst (valid rows)) 0 (fst (0, (0, 0)))) by (rewrite map_length; exact Hi). rewrite map_nth.
          apply L, nth_In, Hi. }
        pose proof (line_of_line rows Huse xs a b E) as Z.
        assert (Z1 : line_ss rows xs c s = 0).
        { destruct (B (a + b * nth 0 xs 0) b) as (B1 & _). rewrite Z in B1.
          assert (0 <= line_ss rows xs c s); [|lra]. unfold line_ss. apply bsum_nonneg. intros i Hi.
          apply Rmult_le_pos; [apply pow2_ge_0|]. left. apply Rinv_0_lt_compat, pow2_gt_0, (err_nz rows Huse), Hi. }
        destruct (B (a + b * nth 0 xs 0) b) as (_ & B2). rewrite Z, Z1 in B2. destruct (B2 eq_refl) as (<- & <-).
        assert (HX : nth 0 xs 0 = hd 0 xs) by (destruct xs; reflexivity). cbv zeta in K.
        destruct (K g f g' EF) as [(_ & _ & _ & _ & _ & O1 & O2)|(NP & _ & _ & _ & _ & O1 & O2 & _)].
        * rewrite O1, O2, HX. split; [|reflexivity]. apply map_ext. intros u. f_equal. ring.
        * assert (R0 : flat_ss rows (weighted_mean rows) = 0).
          { destruct (Req_dec (flat_ss rows (weighted_mean rows)) 0) as [|N]; [assumption|]. exfalso. apply NP. unfold prefers_line. rewrite Z1. split; [|auto].
            assert (0 <= flat_ss rows (weighted_mean rows)); [|lra]. unfold flat_ss. apply bsum_nonneg. intros i Hi.
            apply Rmult_le_pos; [apply pow2_ge_0|]. left. apply Rinv_0_lt_compat, pow2_gt_0, (err_nz rows Huse), Hi. }
          pose proof (flat_zero_equal rows Huse _ R0) as Q. destruct SP as (p & q & Hp & Hq & NE).
          apply in_map_iff in Hp as (p' & <- & Hp). apply in_map_iff in Hq as (q' & <- & Hq).
          assert (Q1 : a + b * fst p' = weighted_mean rows). { rewrite <- (L p' Hp). apply Q. unfold values. apply in_map_iff. eauto. }
          assert (Q2 : a + b * fst q' = weighted_mean rows). { rewrite <- (L q' Hq). apply Q. unfold values. apply in_map_iff. eauto. }
          assert (b = 0). { destruct (Req_dec b 0) as [|Nb]; [assumption|]. exfalso. apply NE. apply (Rmult_eq_reg_l b); [lra|exact Nb]. }
          subst b. rewrite O1, O2. split; [|reflexivity]. apply map_ext. intros u. f_equal. lra.
      + rewrite (choice_no_line det solve inv least_squares rng randn rows lvcov v (VStr "max_no_breaks") z g) in EF; auto using name_ok. discriminate.
    - intros HC. destruct (choice_constant det solve inv least_squares rng randn rows lvcov us v (VStr "max_no_breaks") z g) as (f' & E' & O); auto using name_ok.
      rewrite E' in EF. injection EF as -> _. exact O.
  Qed.
End Fits.
