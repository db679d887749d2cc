(* Proofs for fit_cond: the fit chosen when only max_no_breaks is given *)
From Coq Require Import String ZArith List Bool Reals Lra Lia Sorted Permutation FunctionalExtensionality.
From Flocq Require Import Core.Raux.
From Verif Require Import Num Np NumFacts NpFacts Utilities Finders Stats FitCond Spec_Utilities Spec_Finders Spec_Stats
  Spec_FitCond LinR LeastSq Proofs_Utilities Proofs_Besthist Proofs_Thetas2 Proofs_Stats1 Proofs_Fit Proofs_FC1 Proofs_FC2 Proofs_FC3 Proofs_FC4 Proofs_FC5 Proofs_FC6 Proofs_FC7 Proofs_FC8.
Import ListNotations.
Local Open Scope R_scope.
Local Open Scope list_scope.

(* ---- effective number ---- *)
Lemma argwhere_filter {A} (p : A -> bool) d l : argwhere p l = filter (fun i => p (nth i l d)) (seq 0 (length l)).
Proof.
  unfold argwhere. assert (G : forall k l, argwhere_from k p l = filter (fun i => p (nth (i - k) l d)) (seq k (length l))).
  { clear l. intros k l. revert k. induction l as [|a l IH]; intros k; [reflexivity|]. cbn [argwhere_from length seq filter].
    rewrite Nat.sub_diag. change (nth 0 (a :: l) d) with a.
    assert (E : filter (fun i => p (nth (i - k) (a :: l) d)) (seq (S k) (length l)) = filter (fun i => p (nth (i - S k) l d)) (seq (S k) (length l))).
    { apply filter_ext_in. intros i Hi. apply in_seq in Hi. replace (i - k)%nat with (S (i - S k)) by lia. reflexivity. }
    rewrite E, IH. reflexivity. }
  rewrite G. apply filter_ext. intros i. now rewrite Nat.sub_0_r.
Qed.
Lemma valid_positions_good (x y : list XR) : length x = length y -> valid_positions x y = good_points x y.
Proof.
  intros L. unfold valid_positions, good_points. rewrite (argwhere_filter _ (NaN, NaN)), combine_length, <- L, Nat.min_id.
  apply filter_ext. intros i. rewrite combine_nth by auto. cbn [fst snd]. apply andb_comm.
Qed.
Lemma rsum_bsum (l : list nat) (f : nat -> R) : fold_right Rplus 0 (map f l) = bsum (length l) (fun i => f (nth i l 0%nat)).
Proof.
  change (fold_right Rplus 0 (map f l)) with (rsum (map f l)). unfold bsum. change (fold_right Rplus 0) with rsum. f_equal.
  apply (nth_ext _ _ 0 0); [now rewrite !map_length, seq_length|]. intros i Hi. rewrite map_length in Hi.
  rewrite (nth_map _ _ _ _ 0%nat) by auto. rewrite (nth_map _ _ _ _ 0%nat) by now rewrite seq_length. now rewrite seq_nth.
Qed.
Lemma effective_eff rows lv v : effective_number rows lv v -> eff_dof (nobs rows) (lvR rows lv) = Fin v.
Proof.
  unfold effective_number. rewrite valid_positions_good by (unfold col_x, col_y; now rewrite !map_length).
  rewrite good_rows. intros (c & Hc & Hs & ->). unfold lvR.
  set (pos := argwhere has rows) in *.
  assert (L : length pos = nobs rows).
  { unfold pos, nobs. rewrite <- (valid_length rows). reflexivity. }
  rewrite <- L. rewrite (eff_dof_value _ _ (fun i j => c (nth i pos 0%nat) (nth j pos 0%nat))).
  - f_equal. rewrite rsum_bsum. apply bsum_ext. intros i Hi. now rewrite rsum_bsum.
  - intros i j Hi Hj. apply Hc; now apply nth_In.
  - intros i Hi. unfold row_sum. rewrite <- (rsum_bsum pos (c (nth i pos 0%nat))). apply Hs. now apply nth_In.
Qed.

(* ---- the choice ---- *)
Lemma spread_several rows x1 xr : sorted_positions rows (x1 :: xr) -> (spread rows <-> several x1 xr).
Proof.
  intros [_ Pm]. split.
  - intros (p & q & Hp & Hq & N). destruct (Req_EM_T p x1) as [->|Np].
    + exists q. split; [|congruence]. apply (Permutation_in q (Permutation_sym Pm) Hq).
    + exists p. split; auto. apply (Permutation_in p (Permutation_sym Pm) Hp).
  - intros (p & Hp & N). exists p, x1. split; [|split; auto]; apply (Permutation_in _ Pm); auto. simpl. auto.
Qed.

Section Choice.
  Variable det : nat -> (nat -> nat -> XR) -> XR.
  Variable solve : nat -> nat -> (nat -> nat -> XR) -> (nat -> nat -> XR) -> res (nat -> nat -> XR).
  Variable inv : nat -> (nat -> nat -> XR) -> res (nat -> nat -> XR).
  Variable least_squares : (list XR -> res (list XR)) -> list XR -> res (list (list XR) * list XR).
  Variable rng : Type.
  Variable randn : nat -> rng -> list XR * rng.
  Hypothesis Hdet : det_ok det.
  Hypothesis Hsolve : solve_ok solve.
  Hypothesis Hinv : inv_ok inv.
  Hypothesis Hrand : randn_ok randn.
  Notation call := (fit_cond det solve inv least_squares rng randn).

  Variables (rows : list row) (lvcov : nat -> nat -> XR) (x1 : R) (xr us vs : list R) (v : R).
  Notation xs := (x1 :: xr).
  Hypothesis Huse : usable rows.
  Hypothesis Hxs : sorted_positions rows xs.
  Hypothesis Hus : distinct_of (map fst rows) us.
  Hypothesis Hvs : distinct_of xs vs.
  Hypothesis Hv : eff_dof (nobs rows) (lvR rows lvcov) = Fin v.
  Variables (a : pyval XR) (mx : Z).
  Hypothesis Ha : named "max_no_breaks"%string a.
  Hypothesis Hmx : (-1 <= mx)%Z.
  Notation P := (P rows lvcov x1 xr us vs v).
  Notation here := (call (col_x rows) (col_y rows) (col_e rows) lvcov [a; VInt mx]).

  Definition o1 : @opts XR := mkOpts [] (VInt mx) (-1)%Z (VInt 200) [] false.
  Definition d1 : dims := if Z.eqb mx (-1) then mkDims 1 1 1 1 else
    let m := Z.to_nat mx in mkDims m (m + 1) (m + 2) (m + 2).
  Definition t0 : @tables XR := mkTables (fun _ _ => NaN) (fun _ _ => NaN) (fun _ => NaN) (fun _ => NaN) [].

  Lemma parse_here p : parse_args p [a; VInt mx] = Ok o1.
  Proof. destruct Ha as (s & -> & Es). unfold parse_args. cbn [length Nat.odd Nat.even negb parse_pairs parse_option]. rewrite Es. reflexivity. Qed.
  Lemma dims_here : dims_of mx = Ok d1.
  Proof. unfold dims_of, d1. destruct (Z.eqb_spec mx (-1)); auto. destruct (Z.ltb_spec mx 0); [lia|]. reflexivity. Qed.

  Lemma here_unfold K g : most_breaks v mx K -> candidates P o1 (-1) mx = (zrange (-1) (K + 1), (-1)%Z, mx) ->
    here g = match (let* t2 := score_all det solve inv least_squares P o1 d1 (-1) mx (zrange (-1) (K + 1)) t0 in
                    let* best := choose o1 d1 (zrange (-1) (K + 1)) (-1) mx t2 in Ok (t2, best)) with
             | Raise e => (Raise e, g)
             | Ok (t2, best) => match evaluate det solve inv least_squares rng randn P o1 (-1) t2 best g with
                                | (Ok f, g') => (Ok (Fitted f), g') | (Raise e, g') => (Raise e, g') end
             end.
  Proof.
    intros HK HC. unfold fit_cond.
    assert (N : good_points (col_x rows) (col_y rows) <> []).
    { rewrite good_rows. intros E. pose proof (valid_length rows) as L. rewrite E in L. destruct Huse as [Q _].
      destruct (valid rows); [now apply Q|discriminate]. }
    destruct (good_points _ _) eqn:E; [congruence|]. clear E N. cbv zeta.
    rewrite (prepare_P rows lvcov x1 xr us vs v Huse Hxs Hus Hvs Hv). rewrite parse_here. cbn [bind o_max o1 py_int_of].
    rewrite dims_here. cbn [bind]. unfold setup. cbn [o_set o1 bind o_nbr1].
    change (mkOpts [] (VInt mx) (-1)%Z (VInt 200) [] false) with o1. rewrite HC. cbn [o_breaks o1].
    change (mkTables (fun _ _ => nnan) (fun _ _ => nnan) (fun _ => nnan) (fun _ => nnan) []) with t0.
    destruct (score_all _ _ _ _ _ _ _ _ _ _ _) as [t2|]; [|reflexivity]. cbn [bind].
    destruct (choose _ _ _ _ _ _) as [b|]; reflexivity.
  Qed.

  Lemma K_cases K : most_breaks v mx K -> ((mx = (-1)%Z \/ v < 5) -> K = (-1)%Z) /\ ((0 <= mx)%Z -> 5 <= v -> (0 <= K)%Z) /\
    ((mx = 0%Z \/ v < 7) -> (K <= 0)%Z).
  Proof.
    intros (B & D & M). split; [|split].
    - intros [->|L]; [lia|]. destruct D as [D|D]; auto. destruct (Z.eq_dec K (-1)); auto. exfalso.
      assert (0 <= K)%Z by lia. assert (0 <= IZR K) by (apply IZR_le; lia). rewrite plus_IZR, mult_IZR in D. lra.
    - intros H0 H5. apply M; [lia|]. exact H5.
    - intros [->|L]; [lia|]. destruct D as [D|D]; [lia|]. rewrite plus_IZR, mult_IZR in D. 
      assert (K < 1)%Z; [|lia]. apply lt_IZR. lra.
  Qed.

  Lemma fit_constant g : mx = (-1)%Z \/ v < 5 -> exists f, here g = (Ok (Fitted f), g) /\ offset_result rows us v f.
  Proof.
    intros H. destruct (candidates_plain P o1 mx v eq_refl eq_refl Hmx) as (K & HK & HC).
    rewrite (here_unfold K g HK HC). destruct (K_cases K HK) as (C1 & _). rewrite (C1 H).
    change (zrange (-1) (-1 + 1)) with [(-1)%Z]. cbn [score_all].
    destruct (score_offset det solve inv least_squares Hinv rows lvcov x1 xr us vs v Huse Hxs o1 d1 (-1)%Z mx t0)
      as (t' & Et & A0 & _). rewrite Et. cbn [bind].
    assert (Ec : choose o1 d1 [(-1)%Z] (-1) mx t' = Ok 1%nat).
    { unfold choose. cbn [o_set o1 andb]. change (Z.ltb 1 (-1)) with false. cbv iota zeta. cbn [map].
      change (Z.to_nat (-1 + 1)) with 0%nat. cbn [existsb].
      assert (Nat.leb (dr d1) 0 = false) as ->.
      { apply Nat.leb_gt. unfold d1. destruct (Z.eqb mx (-1)); cbn; lia. }
      reflexivity. }
    rewrite Ec. cbn [bind].
    destruct (evaluate_offset det solve inv least_squares rng randn Hinv rows lvcov x1 xr us vs v Huse Hxs o1 (-1)%Z t' g A0) as (f & -> & Hf).
    eauto.
  Qed.

  Lemma dims_big : (0 <= mx)%Z -> (2 <= da d1)%nat /\ (2 <= dr d1)%nat.
  Proof. intros H. unfold d1. destruct (Z.eqb_spec mx (-1)); [lia|]. cbn [da dr]. lia. Qed.

  Lemma score_line_singular mb t : (0 <= mx)%Z -> ~ several x1 xr -> score det solve inv least_squares P o1 d1 (-1) mb 0 t = Raise ValueError.
  Proof.
    intros H N. destruct (dims_big H) as [A _]. unfold score. change (Z.eqb 0 (-1)) with false. change (Z.eqb 0 0) with true. cbv iota zeta.
    rewrite (line_singular det solve Hdet rows lvcov x1 xr us vs v Huse Hxs N). cbn [bind fst set_coefs].
    destruct (Nat.leb_spec (da d1) 1); [lia|]. reflexivity.
  Qed.
  Lemma score_line mb t : (0 <= mx)%Z -> several x1 xr -> exists b0 b1 t',
    let c := b0 * yscR rows + y0R rows in let s := b1 * yscR rows / xscR xs in
    best_line rows xs c s /\ score det solve inv least_squares P o1 d1 (-1) mb 0 t = Ok t' /\
    b_A t' 0%nat 1%nat = Fin b0 /\ b_A t' 1%nat 1%nat = Fin b1 /\ (forall i, b_A t' i 0%nat = b_A t i 0%nat) /\
    aic t' 1%nat = aic_of P (Fin (line_ss rows xs c s)) (Fin 2) (Fin 4) /\ aic t' 0%nat = aic t 0%nat.
  Proof.
    intros H N. destruct (dims_big H) as [A B].
    destruct (line_fit det solve Hdet Hsolve rows lvcov x1 xr us vs v Huse Hxs N) as (b0 & b1 & Hb & r & E & Lr & Er).
    exists b0, b1. unfold score. change (Z.eqb 0 (-1)) with false. change (Z.eqb 0 0) with true. cbv iota zeta.
    rewrite E. cbn [bind fst snd set_coefs firstn]. rewrite Er. unfold set_col, set_cell.
    destruct (Nat.leb_spec (da d1) 1); [lia|]. destruct (Nat.leb_spec (dr d1) 1); [lia|].
    replace (Nat.min 2 (da d1)) with 2%nat by lia. cbn [length Nat.eqb orb bind].
    eexists. split; [exact Hb|]. split; [reflexivity|]. cbn [b_A aic Nat.eqb Nat.ltb Nat.leb andb nth]. repeat split; auto.
  Qed.

  Lemma fit_no_line g : (0 <= mx)%Z -> 5 <= v -> ~ several x1 xr -> here g = (Raise ValueError, g).
  Proof.
    intros H0 H5 N. destruct (candidates_plain P o1 mx v eq_refl eq_refl Hmx) as (K & HK & HC).
    rewrite (here_unfold K g HK HC). destruct (K_cases K HK) as (_ & C2 & _). specialize (C2 H0 H5).
    rewrite zrange_cons by lia. rewrite (zrange_cons (-1 + 1)) by lia. change (-1 + 1)%Z with 0%Z. cbn [score_all].
    destruct (score_offset det solve inv least_squares Hinv rows lvcov x1 xr us vs v Huse Hxs o1 d1 (-1)%Z mx t0)
      as (t' & Et & A0 & _). rewrite Et. cbn [bind]. rewrite score_line_singular by auto. reflexivity.
  Qed.

  Lemma flat_ss_nonneg c : 0 <= flat_ss rows c.
  Proof. apply bsum_nonneg. intros i _. apply Rmult_le_pos; [apply pow2_ge_0|]. destruct (Req_EM_T (nth i (errors rows) 0 ^ 2) 0) as [E|E].
    - rewrite E, Rinv_0. lra.
    - left. apply Rinv_0_lt_compat. pose proof (pow2_ge_0 (nth i (errors rows) 0)). lra. Qed.
  Lemma line_ss_nonneg c s : 0 <= line_ss rows xs c s.
  Proof. apply bsum_nonneg. intros i _. apply Rmult_le_pos; [apply pow2_ge_0|]. destruct (Req_EM_T (nth i (errors rows) 0 ^ 2) 0) as [E|E].
    - rewrite E, Rinv_0. lra.
    - left. apply Rinv_0_lt_compat. pose proof (pow2_ge_0 (nth i (errors rows) 0)). lra. Qed.

  Lemma fit_line : (0 <= mx)%Z -> 5 <= v -> several x1 xr -> exists c s, best_line rows xs c s /\
    let r0 := flat_ss rows (weighted_mean rows) in let r1 := line_ss rows xs c s in
    (forall g f g', here g = (Ok (Fitted f), g') ->
       prefers_line (nobs rows) v r0 r1 /\ line_result rows xs us v c s f \/
       ~ prefers_line (nobs rows) v r0 r1 /\ offset_result rows us v f) /\
    (mx = 0%Z \/ v < 7 -> forall g, exists f g', here g = (Ok (Fitted f), g')).
  Proof.
    intros H0 H5 Hs. destruct (candidates_plain P o1 mx v eq_refl eq_refl Hmx) as (K & HK & HC).
    destruct (K_cases K HK) as (_ & C2 & C3). specialize (C2 H0 H5).
    destruct (score_offset det solve inv least_squares Hinv rows lvcov x1 xr us vs v Huse Hxs o1 d1 (-1)%Z mx t0)
      as (t1 & Et & A0 & _ & Q0 & _).
    destruct (score_line mx t1 H0 Hs) as (b0 & b1 & t2 & Hb & E2 & B0 & B1 & BA & Q1 & BQ).
    set (c := b0 * yscR rows + y0R rows) in *. set (s := b1 * yscR rows / xscR xs) in *.
    exists c, s. split; auto. cbv zeta. set (r0 := flat_ss _ _) in *. set (r1 := line_ss _ _ _ _) in *.
    assert (Np : (0 < nobs rows)%nat) by exact (n_pos rows x1 xr Hxs).
    pose proof (aic_compare P (nobs rows) v eq_refl Np eq_refl ltac:(lra) r0 r1 (flat_ss_nonneg _) (line_ss_nonneg _ _)) as AC.
    cbv zeta in AC. destruct AC as (N0 & N1 & AC).
    unfold aicX in Q0. rewrite <- Q0 in N0, AC. rewrite <- Q1 in N1, AC. rewrite <- BQ in N0, AC.
    set (rest := zrange 1 (K + 1)).
    assert (ER : zrange (-1) (K + 1) = (-1)%Z :: 0%Z :: rest).
    { rewrite zrange_cons by lia. rewrite (zrange_cons (-1 + 1)) by lia. reflexivity. }
    assert (Sc : forall A (k : _ -> res A), (let* t := score_all det solve inv least_squares P o1 d1 (-1) mx (zrange (-1) (K + 1)) t0 in k t)
       = let* t := score_all det solve inv least_squares P o1 d1 (-1) mx rest t2 in k t).
    { intros A k. rewrite ER. cbn [score_all]. rewrite Et. cbn [bind]. rewrite E2. cbn [bind]. reflexivity. }
    assert (Ev1 : forall t3 g, keeps t2 t3 -> exists f, evaluate det solve inv least_squares rng randn P o1 (-1) t3 1 g = (Ok f, g) /\ offset_result rows us v f).
    { intros t3 g [KA KQ]. apply (evaluate_offset det solve inv least_squares rng randn Hinv rows lvcov x1 xr us vs v Huse Hxs o1 (-1)%Z t3 g).
      rewrite KA by lia. rewrite BA. exact A0. }
    assert (Ev2 : forall t3 g, keeps t2 t3 -> exists f g', evaluate det solve inv least_squares rng randn P o1 (-1) t3 2 g = (Ok f, g') /\ line_result rows xs us v c s f).
    { intros t3 g [KA KQ]. apply (evaluate_line det solve inv least_squares rng randn Hdet Hsolve Hinv Hrand rows lvcov x1 xr us vs v Huse Hxs Hus o1 (-1)%Z t3 g b0 b1 200); auto; try lia;
      rewrite KA by lia; assumption. }
    assert (Ch : forall t3 best, keeps t2 t3 -> choose o1 d1 (zrange (-1) (K + 1)) (-1) mx t3 = Ok best ->
       (best = 1%nat /\ ~ prefers_line (nobs rows) v r0 r1) \/ (best = 2%nat /\ prefers_line (nobs rows) v r0 r1) \/ (3 <= best)%nat).
    { intros t3 best [KA KQ]. unfold choose. cbn [o_set o1 andb]. change (Z.ltb 1 (-1)) with false. cbv iota zeta. rewrite ER. cbn [map].
      change (Z.to_nat (-1 + 1)) with 0%nat. change (Z.to_nat (0 + 1)) with 1%nat.
      destruct (existsb _ _); [discriminate|]. intros E. apply ok_inj in E.
      rewrite (KQ 0%nat), (KQ 1%nat) in E by lia.
      set (good := map (fun k => Z.to_nat (k + 1)) rest) in *.
      destruct (argmin (aic t2 0%nat :: aic t2 1%nat :: map (aic t3) good)) as [|[|i]] eqn:Ea; cbn [nth] in E.
      - left. split; [lia|]. apply argmin_zero in Ea; auto. intros Pr. apply AC in Pr. rewrite N1 in Ea. cbn [orb] in Ea. congruence.
      - right. left. split; [lia|]. apply argmin_one in Ea as [_ Ea]. rewrite N1 in Ea. now apply AC.
      - right. right.
        pose proof (argmin_lt (aic t2 0%nat :: aic t2 1%nat :: map (aic t3) good) ltac:(discriminate)) as L.
        rewrite Ea in L. cbn [length] in L. rewrite map_length in L.
        assert (I : In (nth i good 0%nat) good) by (apply nth_In; lia).
        unfold good in I at 2. apply in_map_iff in I as (k & Ek & Hk). apply zrange_in in Hk. lia. }
    split.
    - intros g f g'. rewrite (here_unfold K g HK HC), Sc.
      destruct (score_all _ _ _ _ _ _ _ _ _ rest t2) as [t3|] eqn:E3; [|discriminate]. cbn [bind].
      assert (KP : keeps t2 t3).
      { eapply score_all_keeps; [|exact E3]. intros k Hk. apply zrange_in in Hk. lia. }
      destruct (choose _ _ _ _ _ _) as [best|] eqn:Ec; [|discriminate]. cbn [bind].
      destruct (Ch t3 best KP Ec) as [(-> & NP)|[(-> & PL)|L]].
      + destruct (Ev1 t3 g KP) as (f1 & -> & R1). intros E. right. split; auto. congruence.
      + destruct (Ev2 t3 g KP) as (f1 & g1 & -> & R1). intros E. left. split; auto. congruence.
      + destruct (evaluate_breaks det solve inv least_squares rng randn P o1 (-1) t3 best g 200 L eq_refl eq_refl ltac:(lia)) as (e & g1 & ->).
        discriminate.
    - intros HM g. specialize (C3 HM). assert (K = 0%Z) by lia. subst K.
      rewrite (here_unfold 0 g HK HC), Sc. change rest with (@nil Z) in *. cbn [score_all bind].
      assert (KP : keeps t2 t2) by (split; auto).
      destruct (choose o1 d1 (zrange (-1) (0 + 1)) (-1) mx t2) as [best|] eqn:Ec.
      + cbn [bind]. destruct (Ch t2 best KP Ec) as [(-> & NP)|[(-> & PL)|L]].
        * destruct (Ev1 t2 g KP) as (f1 & -> & R1). eauto.
        * destruct (Ev2 t2 g KP) as (f1 & g1 & -> & R1). eauto.
        * exfalso. revert Ec. unfold choose. cbn [o_set o1 andb]. change (Z.ltb 1 (-1)) with false. cbv iota zeta. rewrite ER. cbn [map].
          change (Z.to_nat (-1 + 1)) with 0%nat. change (Z.to_nat (0 + 1)) with 1%nat.
          destruct (existsb _ _); [discriminate|]. intros E. apply ok_inj in E.
          pose proof (argmin_lt [aic t2 0%nat; aic t2 1%nat] ltac:(discriminate)) as La. cbn [length] in La.
          destruct (argmin _) as [|[|i]]; cbn [nth] in E; lia.
      + exfalso. revert Ec. unfold choose. cbn [o_set o1 andb]. change (Z.ltb 1 (-1)) with false. cbv iota zeta. rewrite ER. cbn [map existsb].
        change (Z.to_nat (-1 + 1)) with 0%nat. change (Z.to_nat (0 + 1)) with 1%nat.
        destruct (dims_big H0) as [_ B]. destruct (Nat.leb_spec (dr d1) 0); [lia|]. destruct (Nat.leb_spec (dr d1) 1); [lia|]. discriminate.
  Qed.
End Choice.

(* the three outcomes together *)
Section Outcome.
  Variable det : nat -> (nat -> nat -> XR) -> XR.
  Variable solve : nat -> nat -> (nat -> nat -> XR) -> (nat -> nat -> XR) -> res (nat -> nat -> XR).
  Variable inv : nat -> (nat -> nat -> XR) -> res (nat -> nat -> XR).
  Variable least_squares : (list XR -> res (list XR)) -> list XR -> res (list (list XR) * list XR).
  Variable rng : Type.
  Variable randn : nat -> rng -> list XR * rng.
  Variables (rows : list row) (lvcov : nat -> nat -> XR) (xs us : list R) (v : R) (a : pyval XR) (mx : Z).
  Notation here := (fit_cond det solve inv least_squares rng randn (col_x rows) (col_y rows) (col_e rows) lvcov [a; VInt mx]).

  Lemma xs_cons : usable rows -> sorted_positions rows xs -> exists x1 xr, xs = x1 :: xr.
  Proof.
    intros [N _] [_ Pm]. destruct xs as [|x1 xr]; [|eauto]. apply Permutation_nil in Pm.
    destruct (valid rows); [now destruct N|discriminate].
  Qed.

  Theorem choice_constant g : inv_ok inv -> usable rows -> distinct_of (map fst rows) us -> effective_number rows lvcov v ->
    named "max_no_breaks"%string a -> (-1 <= mx)%Z -> mx = (-1)%Z \/ v < 5 ->
    exists f, here g = (Ok (Fitted f), g) /\ offset_result rows us v f.
  Proof.
    intros Hi Hu Hus He Ha Hm H. destruct (sorted_positions_exists rows) as (xs1 & Hxs).
    destruct xs1 as [|x1 xr]. { exfalso. destruct Hu as [N _]. destruct Hxs as [_ Pm]. apply Permutation_nil in Pm. destruct (valid rows); [now destruct N|discriminate]. }
    destruct (distinct_exists (x1 :: xr)) as (vs & Hvs).
    eapply (fit_constant det solve inv least_squares rng randn Hi rows lvcov x1 xr us vs v); eauto. now apply effective_eff.
  Qed.
  Theorem choice_no_line g : det_ok det -> inv_ok inv -> usable rows -> effective_number rows lvcov v ->
    named "max_no_breaks"%string a -> (0 <= mx)%Z -> 5 <= v -> ~ spread rows -> here g = (Raise ValueError, g).
  Proof.
    intros Hd Hi Hu He Ha Hm H N. destruct (sorted_positions_exists rows) as (xs1 & Hxs).
    destruct xs1 as [|x1 xr]. { exfalso. destruct Hu as [Q _]. destruct Hxs as [_ Pm]. apply Permutation_nil in Pm. destruct (valid rows); [now destruct Q|discriminate]. }
    destruct (distinct_exists (x1 :: xr)) as (vs & Hvs). destruct (distinct_exists (map fst rows)) as (us1 & Hus).
    eapply (fit_no_line det solve inv least_squares rng randn Hd Hi rows lvcov x1 xr us1 vs v); eauto; try lia.
    - now apply effective_eff.
    - intros S. apply N. now apply (spread_several rows x1 xr).
  Qed.
  Theorem choice_line : det_ok det -> solve_ok solve -> inv_ok inv -> randn_ok randn ->
    usable rows -> sorted_positions rows xs -> distinct_of (map fst rows) us -> effective_number rows lvcov v ->
    named "max_no_breaks"%string a -> (0 <= mx)%Z -> 5 <= v -> spread rows ->
    exists c s, best_line rows xs c s /\
    let r0 := flat_ss rows (weighted_mean rows) in let r1 := line_ss rows xs c s in
    (forall g f g', here g = (Ok (Fitted f), g') ->
       prefers_line (length (valid rows)) v r0 r1 /\ line_result rows xs us v c s f \/
       ~ prefers_line (length (valid rows)) v r0 r1 /\ offset_result rows us v f) /\
    (mx = 0%Z \/ v < 7 -> forall g, exists f g', here g = (Ok (Fitted f), g')).
  Proof.
    intros Hd Hs Hi Hr Hu Hxs Hus He Ha Hm H N. destruct (xs_cons Hu Hxs) as (x1 & xr & E). rewrite E in *. clear E.
    destruct (distinct_exists (x1 :: xr)) as (vs & Hvs).
    apply (fit_line det solve inv least_squares rng randn Hd Hs Hi Hr rows lvcov x1 xr us vs v); auto; try lia.
    - now apply effective_eff.
    - now apply (spread_several rows x1 xr).
  Qed.
End Outcome.
