(* Proofs of C148: which break points of the settings are accepted *)
From Coq Require Import ZArith List Bool Lia Reals Lra Sorted.
From Verif Require Import Num Np NumFacts NpFacts Utilities Finders Stats FitCond Topo Helper MapProfile Mapping Config Calib Spec_FitCond Proofs_Utilities Proofs_FC1 Proofs_FC3 Proofs_Interp2
  Spec_Calib Spec_Breaks Proofs_Calib Proofs_Calib2 Proofs_Calib3 Proofs_Calib4 Proofs_Calib6 Proofs_Calib8.
Import ListNotations.
Local Open Scope R_scope.

Lemma prescribed_finite row : length (finite_breaks row) = prescribed row.
Proof. unfold finite_breaks. induction row as [|[x| | |] row IH]; cbn; auto. Qed.

Lemma spread_limit n rows i m : limit_of n rows i m -> (i < n)%nat -> nth_error (fst (spread_max n rows)) i = Some [Fin m].
Proof.
  intros [[N ->]|[N E]] Hi.
  - unfold spread_max. rewrite (proj2 (Nat.ltb_lt 1 n) N). cbn [fst map]. change (nmul (nofZ 1) (Fin m)) with (Fin (1 * m)). rewrite Rmult_1_l.
    rewrite (nth_error_nth' _ [Fin m]) by (now rewrite repeat_length). f_equal. apply nth_repeat.
  - unfold spread_max. destruct (Nat.ltb_spec 1 n) as [L|L]; [|exact E]. destruct rows as [|r [|r' rows]]; [exact E|cbn in N; lia|exact E].
Qed.

Section Check.
  Variables (n : nat) (breaks limits : list (list XR)) (m : nat -> R).
  Hypothesis HM : forall i, (i < n)%nat -> limit_of n limits i (m i).
  Notation rows := (fst (spread_max n limits)).

  Lemma in_range_row i row : (i < n)%nat -> nth_error breaks i = Some row ->
    breaks_in_range breaks rows i = Ok (if Rle_dec (INR (prescribed row)) (m i) then true else false).
  Proof.
    intros Hi E. unfold breaks_in_range. rewrite E, (spread_limit n limits i (m i) (HM i Hi) Hi). cbv zeta. rewrite prescribed_finite.
    change (nltb (Fin (m i)) (nofZ (Z.of_nat (prescribed row)))) with (Rltb (m i) (IZR (Z.of_nat (prescribed row)))).
    rewrite <- INR_IZR_INZ. f_equal. destruct (Rle_dec _ _) as [L|L].
    - apply negb_true_iff. now apply Rltb_false.
    - apply negb_false_iff. apply Rltb_true. lra.
  Qed.
  Lemma mapM_rows k : (k <= n)%nat -> (k <= length breaks)%nat ->
    mapM (breaks_in_range breaks rows) (seq 0 k) = Ok (map (fun i => if Rle_dec (INR (prescribed (nth i breaks []))) (m i) then true else false) (seq 0 k)).
  Proof.
    intros Hk Hb. apply mapM_map. intros i Hi. apply in_seq in Hi. apply in_range_row; [lia|]. apply nth_error_nth'. lia.
  Qed.

  Lemma check_few : breaks <> [] -> (length breaks < n)%nat -> check_breaks n breaks rows = Raise IndexError.
  Proof.
    intros NE L. unfold check_breaks. destruct breaks as [|b bs] eqn:EB; [congruence|]. rewrite <- EB in *.
    assert (Q : mapM (breaks_in_range breaks rows) (seq 0 n) = Raise IndexError).
    { apply mapM_raise.
      - intros i Hi. apply in_seq in Hi. destruct (nth_error breaks i) as [row|] eqn:ER.
        + right. eexists. apply in_range_row; [lia|exact ER].
        + left. unfold breaks_in_range. now rewrite ER.
      - exists (length breaks). split; [apply in_seq; lia|]. unfold breaks_in_range.
        now rewrite (proj2 (nth_error_None breaks (length breaks)) (Nat.le_refl _)). }
    rewrite Q. reflexivity.
  Qed.
  Lemma check_enough : breaks <> [] -> (n <= length breaks)%nat -> exists ok, check_breaks n breaks rows = Ok ok /\
    (snd (spread_max n limits) && ok = true <-> breaks_fit n breaks limits m).
  Proof.
    intros NE L. unfold check_breaks. destruct breaks as [|b bs] eqn:EB; [congruence|]. rewrite <- EB in *.
    rewrite (mapM_rows n (Nat.le_refl _) L). cbn [bind]. eexists. split; [reflexivity|].
    rewrite !andb_true_iff, spread_ok, Nat.eqb_eq, forallb_forall. unfold breaks_fit. split.
    - intros (A & B & C). split; [exact B|]. split; [exact A|]. intros i row E.
      assert (Hi : (i < n)%nat) by (rewrite <- B; apply nth_error_Some; congruence).
      specialize (C _ (in_map _ _ i (proj2 (in_seq n 0 i) ltac:(lia)))). cbv beta in C. rewrite (nth_error_nth _ _ _ E) in C.
      destruct (Rle_dec _ _); [assumption|discriminate].
    - intros (B & A & C). split; [exact A|]. split; [exact B|]. intros x Hx. apply in_map_iff in Hx as (i & <- & Hi). apply in_seq in Hi.
      destruct (Rle_dec _ _) as [|Q]; [reflexivity|]. exfalso. apply Q, C. apply nth_error_nth'. lia.
  Qed.
End Check.

Section Calib.
  Variable det : nat -> (nat -> nat -> XR) -> XR.
  Variable solve : nat -> nat -> (nat -> nat -> XR) -> (nat -> nat -> XR) -> res (nat -> nat -> XR).
  Variable inv : nat -> (nat -> nat -> XR) -> res (nat -> nat -> XR).
  Variable least_squares : (list XR -> res (list XR)) -> list XR -> res (list (list XR) * list XR).
  Variable rng : Type.
  Variable randn : nat -> rng -> list XR * rng.
  Variable interp1d : list XR -> list XR -> XR -> res XR.
  Variable interp2d : list XR -> list XR -> list (list Z) -> XR -> XR -> res XR.
  Variable tbase : binfile.
  Variable c_from_sp : XR -> XR -> XR -> XR.
  Variable sp_from_c : XR -> XR -> XR -> XR.
  Notation whole := (piecewisefit det solve inv least_squares rng randn interp1d interp2d tbase c_from_sp sp_from_c).

  Theorem breaks_outcome cfg src pos d c flags us per m g : c_from_sp NaN NaN (Fin 0) = NaN ->
    (selected_hist d = [] \/ exists l, float_coords interp2d tbase pos = Ok l) -> cf_percent c = Some [[per]] -> cf_breaks c <> [] ->
    cf_calseries c = map Fin flags -> NoDup us -> (forall v, In v us <-> In v flags /\ v <> 0) -> us <> [] ->
    (forall i, (i < length us)%nat -> limit_of (length us) (cf_max_breaks c) i (m i)) ->
    ((length (cf_breaks c) < length us)%nat -> whole cfg src pos d (Ok c) g = (Raise IndexError, g)) /\
    ((length us <= length (cf_breaks c))%nat -> ~ breaks_fit (length us) (cf_breaks c) (cf_max_breaks c) m ->
       exists r, whole cfg src pos d (Ok c) g = (Ok r, g) /\ (forall j, missing r j) /\ k_no r = src_no src /\ k_coef r = [] /\ k_breaks r = []) /\
    (breaks_fit (length us) (cf_breaks c) (cf_max_breaks c) m -> exists e g', whole cfg src pos d (Ok c) g = (Raise e, g')).
  Proof.
    intros HC HH HP HB HF ND HU NU HM.
    destruct (flags_fin flags) as (ws & S & D' & EW).
    assert (LW : length (series_flags (cf_calseries c)) = length us).
    { rewrite HF, EW, map_length. apply Nat.le_antisymm.
      - apply NoDup_incl_length; [apply sorted_NoDup, S|intros x Hx; apply HU, D', Hx].
      - apply NoDup_incl_length; [exact ND|intros x Hx; apply D', HU, Hx]. }
    assert (EC : exists co, match selected_hist d with [] => Ok None | _ => let* l := float_coords interp2d tbase pos in Ok (Some l) end = Ok co).
    { destruct (selected_hist d); [eauto|]. destruct HH as [HH|(l0 & ->)]; [discriminate|cbn [bind]; eauto]. }
    destruct EC as (co & ECo).
    assert (U : forall ok, check_breaks (length us) (cf_breaks c) (fst (spread_max (length us) (cf_max_breaks c))) = Ok ok ->
      snd (spread_max (length us) (cf_max_breaks c)) && ok = false -> whole cfg src pos d (Ok c) g = (Ok (blank_calib src), g)).
    { intros ok E1 E2. unfold piecewisefit. rewrite ECo. cbn [bind]. rewrite HP. cbn [bind]. rewrite LW.
      destruct (spread_max (length us) (cf_max_breaks c)) as [mb ok1]. cbn [fst snd] in *. rewrite E1. cbn [bind]. rewrite E2. reflexivity. }
    split; [|split].
    - intros L. unfold piecewisefit. rewrite ECo. cbn [bind]. rewrite HP. cbn [bind]. rewrite LW.
      pose proof (check_few (length us) (cf_breaks c) (cf_max_breaks c) m HM HB L) as Q.
      destruct (spread_max (length us) (cf_max_breaks c)) as [mb ok1]. cbn [fst] in Q. rewrite Q. reflexivity.
    - intros L NF. destruct (check_enough (length us) (cf_breaks c) (cf_max_breaks c) m HM HB L) as (ok & E & IFF).
      exists (blank_calib src). split; [|split; [intros j; apply blank_missing|repeat split]].
      apply (U ok E). destruct (snd (spread_max (length us) (cf_max_breaks c)) && ok); [exfalso; apply NF; now apply IFF|reflexivity].
    - intros F. assert (L : (length us <= length (cf_breaks c))%nat) by (destruct F as (-> & _); lia).
      destruct (check_enough (length us) (cf_breaks c) (cf_max_breaks c) m HM HB L) as (ok & E & IFF). apply IFF in F.
      destruct (whole cfg src pos d (Ok c) g) as [[r|e] g'] eqn:EQ; [exfalso|eauto].
      apply whole_ok in EQ as (coords & cf & p & EC & EP & _ & ok' & EK & EQ). injection EC as <-. cbv zeta in *. rewrite LW in *.
      rewrite E in EK. injection EK as <-. rewrite F in EQ. destruct EQ as [(_ & EQ)|(C & _)]; [|discriminate].
      destruct us as [|v us']; [congruence|]. destruct (proj1 (HU v) (or_introl eq_refl)) as (Iv & NZ).
      assert (Hv : In (Fin v) (series_flags (cf_calseries c))) by (rewrite HF; apply flags_in; exists v; auto).
      destruct (In_nth_error _ _ Hv) as (q & Hq). destruct (all_each _ _ _ _ _ _ _ _ _ _ _ _ _ _ _ _ _ _ _ _ _ _ EQ q (Fin v) Hq) as (r1 & g1 & r2 & g2 & Q1 & _).
      revert Q1. apply series_breaks.
      + reflexivity.
      + change (nofZ 0) with (Fin 0). change (@nnan XR XR_Num) with NaN. rewrite HC. reflexivity.
      + exact HB.
      + rewrite HF. apply In_nth_error in Iv as (j & Hj). intros C.
        assert (I : In j (calindex_of (map Fin flags) (Fin v))) by (apply calindex_spec, flagged_fin, Hj). rewrite C in I. destruct I.
  Qed.
End Calib.
