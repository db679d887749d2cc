(* Proofs for the error of a line: the draws, and the error of a returned line *)
From Coq Require Import String ZArith List Bool Reals Lra Lia Sorted Permutation.
From Verif Require Import Num Np NumFacts NpFacts Utilities Finders Stats FitCond Spec_Utilities Spec_Finders Spec_Stats
  Spec_FitCond LinR LeastSq Proofs_Utilities Proofs_Besthist Proofs_Stats1 Proofs_Fit Proofs_FC1 Proofs_FC2 Proofs_FC3 Proofs_FC4 Proofs_FC5
  Proofs_FC6 Proofs_FC7 Proofs_FC8 Proofs_FC9 Proofs_FC10 Spec_FitErr Proofs_FC13 Proofs_FC14 Proofs_FC15 Spec_LineErr Proofs_LineErr Proofs_LineErr2.
Import ListNotations.
Local Open Scope R_scope.
Local Open Scope list_scope.

(* ---- the number of draws ---- *)
Section Options.
  Context {T : Type} `{Num T} `{NumT T}.
  Lemma parse_loops (p : @prep T) ps : forall o o', parse_pairs p o (flat ps) = Ok o' ->
    o_nloops o' = fold_left (fun v q => if is_loops q then snd q else v) ps (o_nloops o).
  Proof.
    induction ps as [|[a w] ps IH]; intros o o'; cbn [flat flat_map app parse_pairs fold_left fst snd].
    - intros E. apply ok_inj in E. now subst.
    - change (flat_map _ ps) with (flat ps). intros E. apply bind_ok in E as (o1 & E1 & E2). rewrite (IH _ _ E2). f_equal. clear - E1.
      unfold is_loops. cbn [fst]. unfold parse_option in E1. destruct a as [| | |s]; try discriminate E1. cbv zeta in E1.
      destruct (String.eqb_spec (str_lower s) "nloops") as [Q|Q].
      + rewrite Q in E1. change (String.eqb "nloops" "initial_breaks") with false in E1. change (String.eqb "nloops" "max_no_breaks") with false in E1.
        change (String.eqb "nloops" "number_breaks") with false in E1. change (String.eqb "nloops" "nloops") with true in E1. cbv iota in E1.
        apply ok_inj in E1. now subst.
      + destruct (String.eqb (str_lower s) "initial_breaks"); [destruct w; try discriminate; apply ok_inj in E1; now subst|].
        destruct (String.eqb (str_lower s) "max_no_breaks"); [apply ok_inj in E1; now subst|].
        destruct (String.eqb (str_lower s) "number_breaks"); [destruct w; try discriminate; apply ok_inj in E1; now subst|].
        destruct (String.eqb (str_lower s) "breaks"); [|discriminate].
        destruct w; try discriminate; repeat match type of E1 with context [match ?z with _ => _ end] => destruct z end; try discriminate; apply ok_inj in E1; now subst.
  Qed.
  Variable det : nat -> (nat -> nat -> T) -> T.
  Variable solve : nat -> nat -> (nat -> nat -> T) -> (nat -> nat -> T) -> res (nat -> nat -> T).
  Variable inv : nat -> (nat -> nat -> T) -> res (nat -> nat -> T).
  Variable least_squares : (list T -> res (list T)) -> list T -> res (list (list T) * list T).
  Variable rng : Type.
  Variable randn : nat -> rng -> list T * rng.
  Lemma fit_options x y e lv ps g f g' : fit_cond det solve inv least_squares rng randn x y e lv (flat ps) g = (Ok (Fitted f), g') ->
    exists o nbr1 t best, (1 <= best)%nat /\ o_nloops o = draws ps /\
      evaluate det solve inv least_squares rng randn (prepare x y e lv) o nbr1 t best g = (Ok f, g').
  Proof.
    unfold fit_cond. destruct (good_points x y) as [|a r] eqn:E; [discriminate|]. cbv zeta.
    set (p := prepare x y e lv). clearbody p.
    destruct (parse_args p (flat ps)) as [o|] eqn:PA; cbn [bind]; [|discriminate].
    destruct (py_int_of (o_max o)) as [mx|]; cbn [bind]; [|discriminate].
    destruct (dims_of mx) as [d|]; cbn [bind]; [|discriminate].
    match goal with |- context [setup det solve p o d mx ?t0] => destruct (setup det solve p o d mx t0) as [[[nbr1 mb] t1]|] eqn:S end;
      cbn [bind]; [|discriminate].
    destruct (candidates p o nbr1 mb) as [[pbrk nbr1'] mb'] eqn:C.
    destruct (score_all _ _ _ _ _ _ _ _ _ _) as [t2|]; cbn [bind]; [|discriminate].
    destruct (choose o d pbrk nbr1' mb' t2) as [best|] eqn:Ch; cbn [bind]; [|discriminate].
    destruct (evaluate _ _ _ _ _ _ _ _ _ _ _ _) as [[f0|] g0] eqn:Ev; [|discriminate].
    intros Q. assert (f0 = f /\ g0 = g') as [-> ->] by (split; congruence).
    exists o, nbr1', t2, best. split; [|split; auto].
    - eapply choose_pos; eauto. eapply candidates_ge; eauto. intros St. eapply setup_ge; eauto.
    - unfold parse_args in PA. destruct (Nat.odd _); [discriminate|]. exact (parse_loops p ps default_opts o PA).
  Qed.
End Options.

(* an entry of a column of numbers comes from a number *)
Lemma unscale w k b r : k <> 0 -> nadd (nmul w (Fin k)) (Fin b) = Fin r -> w = Fin ((r - b) / k).
Proof.
  intros K. destruct w as [a| | |]; cbn; unfold xinf_mul; try destruct (Req_EM_T k 0); try destruct (Rlt_dec 0 k); try discriminate; try contradiction.
  all: try (destruct (Rlt_dec k 0); discriminate).
  all: intros E; injection E as <-; f_equal; field; auto.
Qed.
Lemma unscale2 w k m r : k <> 0 -> m <> 0 -> ndiv (nmul w (Fin k)) (Fin m) = Fin r -> w = Fin (r * m / k).
Proof.
  intros K M. destruct w as [a| | |].
  - cbn [nmul XR_Num xmul]. rewrite ndiv_fin by auto. intros E. apply (f_equal (fun z => match z with Fin q => q | _ => 0 end)) in E. rewrite <- E. f_equal. field. auto.
  - cbn. unfold xinf_mul. destruct (Rlt_dec 0 k); cbn; [destruct (Req_EM_T m 0); [contradiction|]|]; repeat match goal with |- context [Rlt_dec ?a ?b] => destruct (Rlt_dec a b) end; cbn; try discriminate;
    repeat match goal with |- context [Rlt_dec ?a ?b] => destruct (Rlt_dec a b) end; try discriminate.
  - cbn. unfold xinf_mul. destruct (Rlt_dec 0 k); cbn; [destruct (Req_EM_T m 0); [contradiction|]|]; repeat match goal with |- context [Rlt_dec ?a ?b] => destruct (Rlt_dec a b) end; cbn; try discriminate;
    repeat match goal with |- context [Rlt_dec ?a ?b] => destruct (Rlt_dec a b) end; try discriminate.
  - cbn. discriminate.
Qed.


Section Line.
  Variable det : nat -> (nat -> nat -> XR) -> XR.
  Variable solve : nat -> nat -> (nat -> nat -> XR) -> (nat -> nat -> XR) -> res (nat -> nat -> XR).
  Variable inv : nat -> (nat -> nat -> XR) -> res (nat -> nat -> XR).
  Variable least_squares : (list XR -> res (list XR)) -> list XR -> res (list (list XR) * list XR).
  Variable rng : Type.
  Variable randn : nat -> rng -> list XR * rng.
  Hypothesis Hdet : det_ok det.
  Hypothesis Hsolve : solve_ok solve.
  Hypothesis Hinv : inv_ok inv.
  Variables (rows : list row) (lvcov : nat -> nat -> XR) (x1 : R) (xr us vs : list R) (c : rmat).
  Notation xs := (x1 :: xr).
  Hypothesis Huse : usable rows.
  Hypothesis Hxs : sorted_positions rows xs.
  Hypothesis Hus : distinct_of (map fst rows) us.
  Hypothesis Hvs : distinct_of xs vs.
  Hypothesis Hc : correlations rows lvcov c.
  Hypothesis Hs : several x1 xr.
  Notation n := (nobs rows).
  Notation xsc := (xscR xs).
  Notation ysc := (yscR rows).
  Notation y0 := (y0R rows).
  Notation nx := (normx xs).
  Notation p := (prepare (col_x rows) (col_y rows) (col_e rows) lvcov).
  Notation Q := (prepare_fin rows lvcov xs us vs Huse Hxs Hus Hvs).
  Notation lc := (line_coefficient rows xs).
  Notation sc := (slope_coefficient rows xs).
  Notation m := (length us).
  Notation e := (design [hd NaN (xfit p)] (xfit p)).
  Notation dev z i := (deviation rows xs us z (nth i us 0)).

  Lemma curve_value v a0 a1 i : v 0%nat = Fin a0 -> v 1%nat = Fin a1 -> (i < m)%nat ->
    mvmul 2 e v i = Fin (a0 + a1 * ((nth i us 0 - hd 0 us) / xsc)).
  Proof.
    intros V0 V1 Hi. rewrite Q. cbn [xfit]. pose proof (xsc_pos rows x1 xr Huse Hxs) as Px.
    destruct us as [|u0 ur] eqn:Eus; [simpl in Hi; lia|]. cbn [map hd]. rewrite <- Eus in *.
    change (Fin (nx u0) :: map Fin (map nx ur)) with (map Fin (map nx (u0 :: ur))). rewrite <- Eus. 
    assert (Sus : StronglySorted Rlt us) by apply Hus.
    assert (Aus : ascending (map nx us)).
    { apply ascending_sorted. pose proof (sorted_normx rows xs Huse Hxs us Sus) as S2.
      clear - S2. induction S2; constructor; auto. eapply Forall_impl; [|eauto]. intros; cbv beta in *. lra. }
    rewrite (mvmul_fin 2 _ (fun i c => basis [nx u0] c (nth i (map nx us) 0)) _ (fun c => nth c [a0; a1] 0)).
    - f_equal. unfold mv. rewrite !bsum_S, bsum_0. cbn [basis nth length]. change (Nat.ltb 1 1) with false. cbn iota.
      rewrite (nth_map _ _ _ _ 0) by auto. rewrite Rmax_right.
      + unfold normx. field. lra.
      + assert (nx u0 <= nx (nth i us 0)); [|lra].
        pose proof (Aus 0%nat i ltac:(rewrite map_length; lia)) as G. rewrite !(nth_map _ _ _ _ 0) in G by (rewrite ?Eus in *; simpl in *; lia).
        rewrite Eus in G at 1. cbn [nth] in G. exact G.
    - intros d Hd. change [Fin (nx u0)] with (map Fin [nx u0]). apply design_value; auto; [apply asc1|]. now rewrite map_length.
    - intros d Hd. destruct d as [|[|d]]; try lia; [now rewrite V0|now rewrite V1].
  Qed.

  (* the line fitted to the values *)
  Notation b0 := ((bsum n (fun i => lc x1 i * nth i (values rows) 0) - y0) / ysc).
  Notation b1 := (bsum n (fun i => sc i * nth i (values rows) 0) * xsc / ysc).
  Notation yv i := (b0 + b1 * ((nth i us 0 - hd 0 us) / xsc)).
  Definition noisy (z : list R) : list R :=
    map (fun i => (nth i (values rows) 0 - y0) / ysc + nth i (errors rows) 0 / ysc * nth i z 0) (seq 0 n).
  Lemma noisy_length z : length (noisy z) = n. Proof. unfold noisy. now rewrite map_length, seq_length. Qed.
  Lemma noisy_nth z i : (i < n)%nat -> nth i (noisy z) 0 = (nth i (values rows) 0 - y0) / ysc + nth i (errors rows) 0 / ysc * nth i z 0.
  Proof. intros Hi. unfold noisy. rewrite (nth_map _ _ _ _ 0%nat) by now rewrite seq_length. now rewrite seq_nth by auto. Qed.
  Lemma noisy_values z : length z = n ->
    map (fun q => nadd (fst (fst q)) (nmul (snd (fst q)) (snd q))) (combine (combine (yf p) (nerr p)) (map Fin z)) = map Fin (noisy z).
  Proof.
    intros Lz. rewrite Q. cbn [yf nerr].
    assert (Lv : length (values rows) = n) by apply ys_length. assert (Le : length (errors rows) = n) by apply es_length.
    apply (nth_ext _ _ NaN NaN).
    - rewrite !map_length, !combine_length, !map_length, Lv, Le, Lz, noisy_length. lia.
    - intros i Hi. rewrite map_length, !combine_length, !map_length, Lv, Le, Lz in Hi. assert (I : (i < n)%nat) by lia.
      rewrite (nth_map _ _ _ _ ((NaN, NaN), NaN)) by (rewrite !combine_length, !map_length, Lv, Le, Lz; lia).
      rewrite combine_nth by (rewrite combine_length, !map_length, Lv, Le, Lz; lia).
      rewrite combine_nth by (rewrite !map_length, Lv, Le; lia). cbn [fst snd].
      rewrite !(nth_map _ _ _ NaN 0) by (rewrite ?map_length, ?noisy_length, ?Lv, ?Le, ?Lz; lia).
      rewrite noisy_nth by auto. rewrite !(nth_map _ _ _ 0 0) by (rewrite ?Lv, ?Le; lia). unfold normy. reflexivity.
  Qed.
  Lemma difference z i : (i < m)%nat ->
    yv i - (bsum n (fun j => lc x1 j * nth j (noisy z) 0) + xsc * bsum n (fun j => sc j * nth j (noisy z) 0) * ((nth i us 0 - hd 0 us) / xsc))
    = - (dev z i / ysc).
  Proof.
    intros Hi. pose proof (ysc_pos rows) as Py. pose proof (xsc_pos rows x1 xr Huse Hxs) as Px.
    pose proof (scatter_positive rows x1 xr Huse Hxs Hs) as SP.
    assert (G : forall a : nat -> R, bsum n (fun j => a j * nth j (noisy z) 0)
       = (bsum n (fun j => a j * nth j (values rows) 0) - y0 * bsum n a + bsum n (fun j => a j * (nth j (errors rows) 0 * nth j z 0))) / ysc).
    { intros a. unfold Rdiv. rewrite <- bsum_scal, <- bsum_minus, <- bsum_plus, <- bsum_scal_r. apply bsum_ext. intros j Hj.
      rewrite noisy_nth by auto. field. lra. }
    rewrite !G. change n with (length (valid rows)). rewrite (lc_sum rows xs Huse), (sc_sum rows xs Huse). unfold deviation.
    rewrite (lc_at rows xs (curve_position xs us (nth i us 0)) (fun j => nth j (errors rows) 0 * nth j z 0)).
    rewrite (lc_at rows xs x1 (fun j => nth j (errors rows) 0 * nth j z 0)). unfold curve_position. cbn [hd]. field. split; lra.
  Qed.

  Lemma loop_value o nbr1 : forall zs g g' er ug, drawn randn n zs g g' -> length er = m ->
    mc_loop det solve least_squares rng randn (length zs) p o nbr1 2 [] e (map Fin (map (fun i => yv i) (seq 0 m))) (map Fin er) ug g
    = (Ok (map Fin (map (fun i => nth i er 0 + fold_right Rplus 0 (map (fun z => (dev z i / ysc) ^ 2) zs)) (seq 0 m))), g').
  Proof.
    induction zs as [|z zs IH]; intros g g' er ug D L.
    - cbn [length mc_loop map fold_right]. cbn [drawn] in D. subst g'. f_equal. f_equal. f_equal.
      apply (nth_ext _ _ 0 0); [now rewrite map_length, seq_length|]. intros i Hi. rewrite L in Hi.
      rewrite (nth_map _ _ _ _ 0%nat) by now rewrite seq_length. rewrite seq_nth by auto. cbn [Nat.add]. ring.
    - destruct D as (g1 & Er & Lz & D). cbn [length mc_loop].
      assert (Ly : length (yf p) = n) by (rewrite Q; cbn [yf]; rewrite !map_length; apply ys_length).
      rewrite Ly, Er. rewrite (noisy_values z Lz). unfold mc_coefs. cbn [Nat.eqb].
      destruct (any_fit det solve Hdet Hsolve rows lvcov x1 xr us vs Huse Hxs Hus Hvs Hs (noisy z) (noisy_length z)) as (r & ->).
      cbn [bind fst coef_list]. rewrite !map_length, seq_length.
      match goal with |- mc_loop _ _ _ _ _ _ _ _ _ _ _ _ _ ?E _ _ = _ => assert (EE : E = map Fin (map (fun i => nth i er 0 + (dev z i / ysc) ^ 2) (seq 0 m))) end.
      { transitivity (map (fun i => Fin (nth i er 0 + (dev z i / ysc) ^ 2)) (seq 0 m)); [|symmetry; apply map_map].
        apply map_ext_in. intros i Hi. apply in_seq in Hi. assert (I : (i < m)%nat) by lia.
        set (A0 := bsum n (fun j => lc x1 j * nth j (noisy z) 0)). set (A1 := xsc * bsum n (fun j => sc j * nth j (noisy z) 0)).
        rewrite (curve_value (vec [Fin A0; Fin A1]) A0 A1 i eq_refl eq_refl I). unfold vec, A0, A1.
        rewrite !(nth_map _ _ _ _ 0) by (rewrite ?map_length, ?seq_length; lia). rewrite (nth_map _ _ _ _ 0%nat) by now rewrite seq_length.
        rewrite seq_nth by auto. cbn [Nat.add]. unfold nsq. cbn [nadd nsub nmul XR_Num xadd xsub xmul]. f_equal. f_equal.
        rewrite (difference z i I). ring. }
      rewrite EE. rewrite (IH g1 g' _ _ D) by now rewrite map_length, seq_length. f_equal. f_equal. f_equal. apply map_ext_in. intros i Hi.
      apply in_seq in Hi. rewrite (nth_map _ _ _ _ 0%nat) by (rewrite seq_length; lia). rewrite seq_nth by lia. cbn [Nat.add map fold_right]. ring.
  Qed.

  Lemma line_error_of o nbr1 t g f g' zs gz a s : best_line rows xs a s -> f_coef f = [Fin a; Fin s] -> o_nloops o = VInt (Z.of_nat (length zs)) -> zs <> [] ->
    drawn randn n zs g gz -> (forall w, In w us -> 0 <= inflation rows xs us c w) ->
    evaluate det solve inv least_squares rng randn p o nbr1 t 2 g = (Ok f, g') ->
    f_condslope_err f = map (fun w => Fin (line_error rows xs us c zs w)) us /\ g' = gz.
  Proof.
    intros BL FC Ho Nz D HI. pose proof (ysc_pos rows) as Py. pose proof (xsc_pos rows x1 xr Huse Hxs) as Px.
    pose proof (scatter_positive rows x1 xr Huse Hxs Hs) as SP.
    destruct (best_line_values rows xs Huse SP a s BL) as [Ea Es]. cbn [nth] in Ea.
    unfold evaluate. cbn [Nat.ltb Nat.leb].
    destruct (line_vars inv Hinv rows lvcov x1 xr us vs c Huse Hxs Hus Hvs Hc Hs) as (p1 & p2 & Ep & P10 & P11 & P20 & P21).
    change (@nnan XR _) with NaN. rewrite Ep. cbn [Nat.eqb]. rewrite Ho, Nat2Z.id.
    cbn [Nat.sub]. change (tab 2 (fun i => b_A t i 1%nat)) with [b_A t 0%nat 1%nat; b_A t 1%nat 1%nat]. cbn [tl].
    assert (Lf : length (xfit p) = m) by (rewrite Q; cbn [xfit]; now rewrite !map_length).
    assert (Ysc : y_scale p = Fin ysc) by now rewrite Q. assert (Y0 : y_0 p = Fin y0) by now rewrite Q. assert (Xsc : x_scale p = Fin xsc) by now rewrite Q.
    rewrite Lf, Ysc, Y0, Xsc.
    match goal with |- context [let '(err, g') := ?X in _] => destruct X as [[err|] g''] eqn:EX end; [|discriminate].
    intros E. assert (Eg : g'' = g') by congruence. subst g''. apply (f_equal fst) in E. cbn [fst] in E. apply ok_inj in E.
    rewrite <- E in FC. cbn [f_coef map] in FC.
    assert (F0 : nadd (nmul (b_A t 0%nat 1%nat) (Fin ysc)) (Fin y0) = Fin a) by exact (f_equal (hd NaN) FC).
    assert (F1 : ndiv (nmul (b_A t 1%nat 1%nat) (Fin ysc)) (Fin xsc) = Fin s) by exact (f_equal (fun l => hd NaN (tl l)) FC).
    apply unscale in F0; [|lra]. apply unscale2 in F1; [|lra|lra]. clear FC.
    rewrite F0, F1 in EX. rewrite Ea, Es in EX.
    change (length (valid rows)) with n in EX.
    assert (YF : tab m (mvmul 2 e (vec [Fin b0; Fin b1])) = map Fin (map (fun i => yv i) (seq 0 m))).
    { unfold tab. rewrite map_map. apply map_ext_in. intros i Hi. apply in_seq in Hi. apply curve_value; [reflexivity|reflexivity|lia]. }
    rewrite YF in EX.
    assert (ZE : map (fun _ : XR => nofZ 0) (map Fin (map (fun i => yv i) (seq 0 m))) = map Fin (map (fun _ => 0) (seq 0 m))) by now rewrite !map_map.
    rewrite ZE in EX. rewrite (loop_value o nbr1 zs g gz _ [] D) in EX by now rewrite map_length, seq_length.
    destruct (Z.eqb_spec (Z.of_nat (length zs)) 0) as [C0|_]; [destruct zs; [contradiction|discriminate C0]|].
    assert (Eg : g' = gz) by congruence. split; auto. clear Eg.
    assert (Ee : err = map (fun q => nmul (ndiv (fst q) (nofZ (Z.of_nat (length zs)))) (snd q))
        (combine (map Fin (map (fun i => nth i (map (fun _ => 0) (seq 0 m)) 0 + fold_right Rplus 0 (map (fun z => (dev z i / ysc) ^ 2) zs)) (seq 0 m)))
           (tab m (fun i => ndiv (mvmul 2 e p2 i) (mvmul 2 e p1 i))))) by congruence.
    rewrite <- E. cbn [f_condslope_err]. rewrite Ee. clear E EX Ee ZE YF.
    assert (LZ : 0 < INR (length zs)) by (apply lt_0_INR; destruct zs; [contradiction|cbn; lia]).
    apply (nth_ext _ _ NaN NaN); [unfold tab; rewrite !map_length, combine_length, !map_length, seq_length; lia|].
    intros i Hi. unfold tab in Hi. rewrite !map_length, combine_length, !map_length, seq_length in Hi. assert (I : (i < m)%nat) by lia.
    rewrite (nth_map _ us _ _ 0) by auto.
    rewrite (nth_map _ _ _ _ NaN) by (unfold tab; rewrite !map_length, combine_length, !map_length, seq_length; lia).
    rewrite (nth_map _ _ _ _ (NaN, NaN)) by (unfold tab; rewrite combine_length, !map_length, seq_length; lia).
    rewrite combine_nth by (unfold tab; rewrite !map_length, seq_length; auto). cbn [fst snd].
    unfold tab. rewrite (nth_map _ _ _ NaN 0%nat) by now rewrite seq_length. rewrite seq_nth by auto.
    rewrite (nth_map _ _ _ NaN 0) by now rewrite map_length, seq_length. rewrite (nth_map _ _ _ 0 0%nat) by now rewrite seq_length.
    rewrite seq_nth by auto. cbn [Nat.add].
    rewrite (nth_map _ _ _ 0 0%nat) by now rewrite seq_length.
    rewrite (curve_value p2 _ _ i P20 P21 I), (curve_value p1 _ _ i P10 P11 I).
    set (w := nth i us 0).
    assert (Iw : In w us) by (apply nth_In; auto).
    assert (Hw : hd 0 us <= w).
    { destruct us as [|u0 ur]; [destruct Iw|]. cbn [hd]. destruct Iw as [<-|Iw]; [lra|]. destruct Hus as [Sd _].
      apply StronglySorted_inv in Sd as [_ Fa]. rewrite Forall_forall in Fa. left. now apply Fa. }
    assert (CD : forall k, pairs_of rows k (lc x1) / ysc ^ 2 + xsc ^ 2 / ysc ^ 2 * pairs_of rows k sc * ((w - hd 0 us) / xsc) = correlated rows xs us k w / ysc ^ 2).
    { intros k. unfold correlated. cbv zeta. change (half_range xs) with xsc. cbn [hd]. field. split; lra. }
    rewrite !CD. pose proof (correlated_pos rows xs Huse SP us w ltac:(change (half_range xs) with xsc; lra) Hw) as CP.
    assert (Y2 : 0 < ysc ^ 2) by now apply pow_lt.
    assert (CP2 : 0 < correlated rows xs us delta w / ysc ^ 2) by (apply Rmult_lt_0_compat; [auto|now apply Rinv_0_lt_compat]).
    rewrite ndiv_fin by lra. change (nofZ (Z.of_nat (length zs))) with (Fin (IZR (Z.of_nat (length zs)))). rewrite <- INR_IZR_INZ. rewrite ndiv_fin by lra.
    cbn [nmul XR_Num xmul].
    assert (SQ : fold_right Rplus 0 (map (fun z => (deviation rows xs us z w / ysc) ^ 2) zs) = fold_right Rplus 0 (map (fun z => deviation rows xs us z w ^ 2) zs) / ysc ^ 2).
    { clear - Py. induction zs as [|z zs IH]; cbn [map fold_right]; [field; lra|]. rewrite IH. field. lra. }
    rewrite SQ. set (T := fold_right Rplus 0 (map (fun z => deviation rows xs us z w ^ 2) zs)).
    assert (PT : 0 <= T).
    { unfold T. clear. induction zs as [|z zs IH]; cbn [map fold_right]; [lra|]. pose proof (pow2_ge_0 (deviation rows xs us z w)). lra. }
    replace ((0 + T / ysc ^ 2) / INR (length zs) * (correlated rows xs us c w / ysc ^ 2 / (correlated rows xs us delta w / ysc ^ 2)))
      with ((T / INR (length zs) * inflation rows xs us c w) / ysc ^ 2) by (unfold inflation; field; repeat split; lra).
    assert (PV : 0 <= T / INR (length zs) * inflation rows xs us c w).
    { apply Rmult_le_pos; [|now apply HI]. apply Rmult_le_pos; auto. left. now apply Rinv_0_lt_compat. }
    assert (PV2 : 0 <= T / INR (length zs) * inflation rows xs us c w / ysc ^ 2) by (apply Rmult_le_pos; [auto|left; now apply Rinv_0_lt_compat]).
    cbn [nsqrt XR_Num xsqrt]. destruct (Rlt_dec _ 0) as [X|_]; [lra|]. cbn [xmul]. f_equal.
    rewrite sqrt_div by auto. rewrite sqrt_pow2 by lra. fold T. unfold line_error. fold T. field. lra.
  Qed.
End Line.
