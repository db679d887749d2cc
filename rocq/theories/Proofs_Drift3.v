(* A constant or linearly changing factor is recovered by the calibration *)
From Coq Require Import String Ascii.
From Coq Require Import ZArith List Bool Lia Reals Lra Sorted Permutation FunctionalExtensionality.
From Flocq Require Core.Raux.
From Verif Require Import Num Np NumFacts NpFacts Utilities Finders Stats FitCond Topo Helper MapProfile Mapping Config Calib
  Spec_Utilities Spec_Finders Spec_Stats Spec_FitCond Spec_Calib Spec_Drift LinR
  Proofs_Besthist Proofs_Stats2 Proofs_Stats3 Proofs_FC1 Proofs_FC2 Proofs_FC3 Proofs_FC9 Proofs_FC11 Proofs_Calib Proofs_Calib2 Proofs_Calib3 Proofs_Calib4 Proofs_Calib6 Proofs_Calib7 Proofs_Calib8
  Proofs_Drift1 Proofs_Drift2.
Import ListNotations.
Local Open Scope R_scope.

Lemma repeat_sorted (l : list R) : StronglySorted Rlt l -> StronglySorted Rle (flat_map (fun n => repeat n 10) l).
Proof.
  assert (G : forall k x (m : list R), StronglySorted Rle m -> (forall y, In y m -> x <= y) -> StronglySorted Rle (repeat x k ++ m)).
  { induction k as [|k IH]; intros x m S H; [exact S|]. cbn [repeat app]. constructor; [apply IH; assumption|]. apply Forall_forall. intros y Hy.
    apply in_app_iff in Hy as [Hy|Hy]; [apply repeat_spec in Hy; subst; lra|apply H, Hy]. }
  induction 1 as [|x l S IH F]; [constructor|]. cbn [flat_map]. apply G; [exact IH|]. intros y Hy. apply in_flat_map in Hy as (z & Hz & Hy). apply repeat_spec in Hy. subst y.
  rewrite Forall_forall in F. left. apply F, Hz.
Qed.
Lemma valid_sorted rows : StronglySorted Rle (map fst rows) -> StronglySorted Rle (map fst (valid rows)).
Proof.
  assert (I : forall r x, In x (map fst (valid r)) -> In x (map fst r)).
  { induction r as [|[y [q|]] r IH]; intros x H; cbn [valid map] in *; [exact H| |right; apply IH, H]. destruct H as [<-|H]; [left; reflexivity|right; apply IH, H]. }
  induction rows as [|[x [q|]] r IH]; intros S; cbn [valid map] in *; [constructor| |]; inversion S as [|? ? S' F]; subst.
  - constructor; [apply IH, S'|]. apply Forall_forall. intros y Hy. rewrite Forall_forall in F. apply F, I, Hy.
  - apply IH, S'.
Qed.

Lemma sorted_lt_nth l : StronglySorted Rlt l -> forall i j, (i < j < length l)%nat -> nth i l 0 < nth j l 0.
Proof.
  induction 1 as [|x l S IH F]; intros i j Hij; cbn [length] in Hij; [lia|]. rewrite Forall_forall in F.
  destruct i as [|i], j as [|j]; cbn [nth]; [lia| |lia|apply IH; lia]. apply F, nth_In. lia.
Qed.

Section Covariances.
  Variable interp1d : list XR -> list XR -> XR -> res XR.
  Variable interp2d : list XR -> list XR -> list (list Z) -> XR -> XR -> res XR.
  Variable tbase : binfile.
  Variable c_from_sp : XR -> XR -> XR -> XR.
  Variables (longs lats : list R) (lat_scale long_scale phi : R) (pv : bool).
  Hypothesis Hlat : lat_scale <> 0.
  Hypothesis Hlong : long_scale <> 0.
  Hypothesis Hphi : pv = true -> phi <> 0.
  Hypothesis Hdep : depths_given interp2d tbase longs lats.
  Variables (src : source XR) (d : mapped XR) (c : calfile XR) (nos : list R) (idx : list nat).
  Hypothesis Htemp : temperatures src.
  Notation cfg := (mkCovConfig (Fin long_scale) (Fin lat_scale) (Fin phi) pv).

  Lemma cov_value l per sd fi :
    float_coords interp2d tbase (mkPositions [map Fin longs] [map Fin lats]) = Ok l ->
    select_series interp1d src (Some l) d c per idx = Ok sd -> build_input c_from_sp cfg sd = Ok fi ->
    forall i j, (i < 10 * length idx)%nat -> (j < 10 * length idx)%nat -> exists z z' w,
      let p := nth (i / 10) idx 0%nat in let q := nth (j / 10) idx 0%nat in
      fi_cov fi i j = Fin (exchanged lat_scale long_scale phi pv (nth p longs 0) (nth p lats 0) z (nth q longs 0) (nth q lats 0) z' * w) /\ 0 < w <= 1.
  Proof.
    intros EL ES EB i j Hi Hj. pose proof ES as SP. apply select_parts in SP as (_ & E2 & _ & _ & E5 & _ & _ & L10).
    assert (LN : length (sd_no sd) = length idx) by (rewrite E5; unfold take; apply map_length).
    assert (LC : length (sd_coord sd) = length idx).
    { pose proof ES as E'. unfold select_series in E'. cbn [bind] in E'. apply bind_ok in E' as (co & Eco & E'). do 10 (apply bind_ok in E' as (? & _ & E')).
      apply bind_ok in E' as ((th & ms) & _ & E'). apply bind_ok in E' as (no & _ & E'). injection E' as <-. cbn [sd_coord].
      apply index_array_ok in Eco as (-> & _). unfold take. apply map_length. }
    set (depth := fun j => match c_2 (nth j l (mkCoord NaN NaN NaN)) with Fin z => z | _ => 1 end).
    assert (HD : forall j, (j < length longs)%nat -> c_2 (nth j l (mkCoord NaN NaN NaN)) = Fin (depth j) /\ depth j <> 0).
    { intros j' Hj'. destruct (Hdep l EL j' Hj') as (z & Ez & NZ). unfold depth. rewrite Ez. auto. }
    assert (TT : forall i p, exists o, of_cols (ten sd (sd_ptmp sd)) i p = oX o).
    { intros i' p. unfold of_cols, ten. rewrite E2.
      destruct (Nat.lt_ge_cases p (length (sd_no sd))) as [Hp|Hp].
      - rewrite nth_map_seq by exact Hp. unfold ten_rows. destruct (Nat.lt_ge_cases i' (length (valid_levels (sd_thetas sd) p))) as [Hv|Hv].
        + rewrite app_nth1 by (rewrite map_length; exact Hv). rewrite (nth_map _ _ _ nnan 0%nat) by exact Hv.
          rewrite LN in Hp. unfold take. rewrite (nth_map _ _ _ [] 0%nat) by exact Hp. apply Htemp.
        + exists None. rewrite app_nth2 by (rewrite map_length; exact Hv). rewrite map_length.
          destruct (nth_in_or_default (i' - length (valid_levels (sd_thetas sd) p)) (repeat (@nnan XR XR_Num) (10 - length (valid_levels (sd_thetas sd) p))) nnan) as [I|E]; [|exact E].
          apply repeat_spec in I. exact I.
      - exists None. rewrite (nth_overflow (map _ _)) by (rewrite map_length, seq_length; exact Hp). destruct i'; reflexivity. }
    set (t := fun i p => match of_cols (ten sd (sd_ptmp sd)) i p with Fin x => Some x | _ => None end).
    assert (HT : forall i p, of_cols (ten sd (sd_ptmp sd)) i p = oX (t i p)).
    { intros i' p. unfold t. destruct (TT i' p) as ([x|] & E); rewrite E; reflexivity. }
    assert (TN : table_needed 10 (length idx) t).
    { intros _ i' p Hi' Hp. destruct (t i' p) as [x|] eqn:Et; [|exact I]. cbn [in_table].
      destruct (Rle_dec (-2) x) as [A|A]; [destruct (Rle_dec x 30) as [B|B]; [split; assumption|]|]; exfalso.
      all: unfold build_input in EB; cbv zeta in EB; apply bind_ok in EB as (cov & EC & _); rewrite LN in EC.
      all: destruct (build_cov_range 10 (length idx) (of_cols (ten sd (sd_ptmp sd))) (sd_coord sd) cfg) as (BR & _).
      1, 3: exact LC.
      all: rewrite BR in EC; [discriminate|]; split; [lia|]; exists i', p; split; [exact Hi'|]; split; [exact Hp|]; rewrite HT, Et; intros [C|(r & C & R1 & R2)]; [discriminate|]; injection C as <-; lra. }
    destruct (calibration_scales interp1d interp2d tbase c_from_sp src longs lats depth l d c per idx sd lat_scale long_scale phi pv t EL HD Hlat Hlong Hphi ES HT TN) as (fi' & EB' & EV).
    assert (fi' = fi) as -> by congruence.
    specialize (EV (i / 10)%nat (j / 10)%nat (i mod 10)%nat (j mod 10)%nat).
    assert (D : forall m, (m < 10 * length idx)%nat -> (m / 10 < length idx)%nat /\ (m mod 10 < 10)%nat /\ (m / 10 * 10 + m mod 10)%nat = m).
    { intros m Hm. split; [apply Nat.div_lt_upper_bound; lia|]. split; [apply Nat.mod_upper_bound; lia|]. pose proof (Nat.div_mod m 10 ltac:(lia)). lia. }
    destruct (D i Hi) as (D1 & D2 & D3). destruct (D j Hj) as (D4 & D5 & D6). specialize (EV D1 D4 D2 D5). cbv zeta in EV. rewrite D3, D6 in EV.
    eexists _, _, _. cbv zeta. split; [exact EV|].
    apply vertical_unit. apply TN; [lia|exact D2|exact D1].
  Qed.
  Lemma cov_positive l per sd fi :
    float_coords interp2d tbase (mkPositions [map Fin longs] [map Fin lats]) = Ok l ->
    select_series interp1d src (Some l) d c per idx = Ok sd -> build_input c_from_sp cfg sd = Ok fi ->
    forall i j, (i < 10 * length idx)%nat -> (j < 10 * length idx)%nat -> exists x, fi_cov fi i j = Fin x /\ 0 < x.
  Proof.
    intros EL ES EB i j Hi Hj. destruct (cov_value l per sd fi EL ES EB i j Hi Hj) as (z & z' & w & E & W & _). cbv zeta in E.
    eexists. split; [exact E|]. apply Rmult_lt_0_compat; [apply exp_pos|exact W].
  Qed.
End Covariances.

(* a sum of positive numbers *)
Lemma sum_positive {A} (f : A -> R) l : l <> [] -> (forall x, In x l -> 0 < f x) -> 0 < fold_right Rplus 0 (map f l).
Proof.
  induction l as [|a l IH]; [congruence|]. intros _ H. cbn [map fold_right]. pose proof (H a (or_introl eq_refl)).
  destruct l as [|b l]; [cbn; lra|]. assert (0 < fold_right Rplus 0 (map f (b :: l))) by (apply IH; [discriminate|intros; apply H; right; assumption]). lra.
Qed.
Lemma number_exists rows (lv : nat -> nat -> XR) :
  (forall i j, (i < length rows)%nat -> (j < length rows)%nat -> exists x, lv i j = Fin x /\ 0 < x) ->
  exists v, effective_number rows lv v.
Proof.
  intros H. eexists. unfold effective_number. cbv zeta.
  set (pos := valid_positions (col_x rows) (col_y rows)).
  assert (B : forall i, In i pos -> (i < length rows)%nat).
  { intros i Hi. unfold pos, valid_positions in Hi. apply filter_In in Hi as (Hi & _). apply in_seq in Hi. unfold col_x in Hi. change (list (R * option (R * R))) with (list row) in *. rewrite map_length in Hi. destruct Hi as (_ & Hi). exact Hi. }
  exists (fun i j => match lv i j with Fin x => x | _ => 0 end). split; [|split; [|reflexivity]].
  - intros i j Hi Hj. destruct (H i j (B i Hi) (B j Hj)) as (x & -> & _). reflexivity.
  - intros i Hi. apply Rgt_not_eq, sum_positive.
    + intros E. rewrite E in Hi. destruct Hi.
    + intros j Hj. destruct (H i j (B i Hi) (B j Hj)) as (x & -> & P). exact P.
Qed.

Lemma ascending_le l : StronglySorted Rle l -> ascending l.
Proof.
  induction 1 as [|x l S IH F]; intros i j Hij; cbn [length] in Hij; [lia|]. rewrite Forall_forall in F.
  destruct i as [|i], j as [|j]; cbn [nth]; [lra| |lia|apply IH; lia]. apply F, nth_In. lia.
Qed.

Lemma follows_errors c_from_sp src d nos idx k : follows c_from_sp src d nos idx k -> errors_given c_from_sp src d idx.
Proof. intros F j l y Hj E. exact (proj2 (F j l y Hj E)). Qed.

Section Recovery.
  Variable det : nat -> (nat -> nat -> XR) -> XR.
  Variable solve : nat -> nat -> (nat -> nat -> XR) -> (nat -> nat -> XR) -> res (nat -> nat -> XR).
  Variable inv : nat -> (nat -> nat -> XR) -> res (nat -> nat -> XR).
  Variable least_squares : (list XR -> res (list XR)) -> list XR -> res (list (list XR) * list XR).
  Variable rng : Type.
  Variable randn : nat -> rng -> list XR * rng.
  Variable interp1d : list XR -> list XR -> XR -> res XR.
  Variable interp2d : list XR -> list XR -> list (list Z) -> XR -> XR -> res XR.
  Variable tbase : binfile.
  Variable c_from_sp : XR -> XR -> XR -> XR.
  Variable sp_from_c : XR -> XR -> XR -> XR.
  Hypothesis Hdet : det_ok det.
  Hypothesis Hsolve : solve_ok solve.
  Hypothesis Hinv : inv_ok inv.
  Hypothesis Hrand : randn_ok randn.
  Hypothesis Hnan : c_from_sp NaN NaN (Fin 0) = NaN.
  Notation whole := (piecewisefit det solve inv least_squares rng randn interp1d interp2d tbase c_from_sp sp_from_c).
  Variables (longs lats : list R) (lat_scale long_scale phi : R) (pv : bool).
  Hypothesis Hlat : lat_scale <> 0.
  Hypothesis Hlong : long_scale <> 0.
  Hypothesis Hphi : pv = true -> phi <> 0.
  Hypothesis Hdep : depths_given interp2d tbase longs lats.
  Variables (src : source XR) (d : mapped XR) (c : calfile XR) (flags nos : list R) (v : R) (idx : list nat) (k : R -> R).
  Hypothesis Htemp : temperatures src.
  Hypothesis HB : cf_breaks c = [].
  Hypothesis HF : cf_calseries c = map Fin flags.
  Hypothesis HR : right_rows flags (cf_max_breaks c).
  Hypothesis Hno : src_no src = map Fin nos.
  Hypothesis NZ : v <> 0.
  Hypothesis LS : lists_series flags v idx.
  Hypothesis Herr : errors_given c_from_sp src d idx.
  Notation cfg := (mkCovConfig (Fin long_scale) (Fin lat_scale) (Fin phi) pv).
  Notation pos := (mkPositions [map Fin longs] [map Fin lats]).
  Notation samples := (samples c_from_sp src d nos idx).
  Notation fit_here fi rows m := (fit_cond det solve inv least_squares rng randn (col_x rows) (col_y rows) (col_e rows) (fi_cov fi) [FitCond.VStr "max_no_breaks"; VFlt m]).
  Variables (us : list R).
  Hypothesis Hus : distinct_of (numbers_of nos idx) us.

  Lemma fits_here g r g' : idx <> [] -> whole cfg src pos d (Ok c) g = (Ok r, g') ->
    exists l per m sd fi n, float_coords interp2d tbase pos = Ok l /\ cf_percent c = Some [[per]] /\
      (forall k, nth_error (series_flags (cf_calseries c)) k = Some (Fin v) -> max_of (fst (spread_max (length (series_flags (cf_calseries c))) (cf_max_breaks c))) k = Ok m) /\
      In (Fin v) (series_flags (cf_calseries c)) /\
      select_series interp1d src (Some l) d c per idx = Ok sd /\ build_input c_from_sp cfg sd = Ok fi /\
      (let rows := samples (sd_thetas sd) in
       usable rows /\ distinct_of (map fst rows) us /\ effective_number rows (fi_cov fi) n /\ length (th_index (sd_thetas sd)) = 10%nat /\
       forall p, (p < length idx)%nat -> exists f g1 g2, fit_here fi rows m g1 = (Ok (Fitted f), g2) /\ rows_of r (nth p idx 0%nat) = fit_values idx f p /\
         length (put_values idx (f_condslope f)) = length idx).
  Proof.
    intros NI E. pose proof (proj1 (right_accepted c flags HF) HR) as A.
    assert (SF := fun p Hp => saved_fin det solve inv least_squares rng randn interp1d interp2d tbase c_from_sp sp_from_c cfg src pos d c flags v idx p g r g' HB A HF NZ LS Hp E).
    assert (L0 : (0 < length idx)%nat) by (destruct idx; [congruence|cbn; lia]).
    destruct (SF 0%nat L0) as (Hv & l & per & m & f & EL & EP & EM & (sd & fi & g1 & g2 & ES & EB & EF) & _ & _).
    pose proof (select_parts _ _ _ _ _ _ _ _ ES) as (_ & _ & _ & _ & _ & _ & _ & L10).
    assert (LR : length (samples (sd_thetas sd)) = (10 * length idx)%nat).
    { rewrite <- (map_length (fst : row -> R)). rewrite samples_places, map_map. change (fun x => fst (rowat c_from_sp src d nos idx x)) with (fun q : nat * option nat => nth (nth (fst q) idx 0%nat) nos 0).
      rewrite <- numbers_places by exact L10. unfold numbers_of. clear. induction idx as [|i q IH]; [reflexivity|]. cbn [map flat_map length]. rewrite app_length, IH, repeat_length. lia. }
    destruct (number_exists (samples (sd_thetas sd)) (fi_cov fi)) as (n & Hn).
    { intros i j Hi Hj. rewrite LR in Hi, Hj. eapply (cov_positive interp1d interp2d tbase c_from_sp longs lats lat_scale long_scale phi pv Hlat Hlong Hphi Hdep); eassumption. }
    exists l, per, m, sd, fi, n. split; [exact EL|]. split; [exact EP|]. split; [exact EM|]. split; [exact Hv|]. split; [exact ES|]. split; [exact EB|]. cbv zeta.
    assert (FS := fun args h => fit_samples interp1d c_from_sp Hnan src d c nos idx Hno Herr cfg l per sd fi det solve inv least_squares rng randn args h ES EB). cbv zeta in FS.
    split; [|split; [|split; [exact Hn|split; [exact L10|]]]].
    - apply (follows_usable c_from_sp src d nos idx Herr). intros V. rewrite FS in EF.
      rewrite no_data in EF; [discriminate|]. rewrite good_rows. pose proof (valid_length (samples (sd_thetas sd))) as L. rewrite V in L. destruct (argwhere has (samples (sd_thetas sd))); [reflexivity|discriminate L].
    - apply samples_positions; assumption.
    - intros p Hp. destruct (SF p Hp) as (_ & l' & per' & m' & f' & EL' & EP' & EM' & (sd' & fi' & g1' & g2' & ES' & EB' & EF') & (r0 & r1 & ER) & RV).
      assert (l' = l) as -> by congruence. assert (per' = per) as -> by congruence.
      destruct (In_nth_error _ _ Hv) as (q & Hq). assert (m' = m) as -> by (specialize (EM q Hq); specialize (EM' q Hq); congruence).
      assert (sd' = sd) as -> by congruence. assert (fi' = fi) as -> by congruence.
      exists f', g1', g2'. rewrite <- FS. split; [exact EF'|]. split; [exact RV|].
      cbn [record_fit] in ER. apply bind_ok in ER as (a1 & P1 & _). apply put_ok in P1. apply P1.
  Qed.

  Hypothesis Hfol : follows c_from_sp src d nos idx k.
  (* the offset *)
  Lemma offset_values g r g' k0 : (forall x, k x = k0) -> whole cfg src pos d (Ok c) g = (Ok r, g') ->
    forall j, In j idx -> entry1 (k_factor r) j = Fin k0 /\ entry1 (k_deriv r) j = Fin 0.
  Proof.
    intros K E j Hj. assert (NI : idx <> []) by (intros ->; destruct Hj).
    destruct (fits_here g r g' NI E) as (l & per & m & sd & fi & n & _ & _ & _ & _ & _ & _ & U & D & N & _ & FH). cbv zeta in *.
    destruct (In_nth idx j 0%nat Hj) as (p & Hp & Ej). destruct (FH p Hp) as (f & g1 & g2 & EF & RV & LL).
    assert (KV : forall y, In y (values (samples (sd_thetas sd))) -> y = k0).
    { intros y Hy. unfold values in Hy. apply in_map_iff in Hy as (q & <- & Hq). apply (samples_valid c_from_sp src d nos idx Herr) in Hq as (p' & i & y & e & Hp' & _ & -> & _ & Ey). cbn [fst snd]. destruct (Hfol _ _ _ (nth_In _ _ Hp') Ey) as (-> & _). apply K. }
    pose proof (equal_fit det solve inv least_squares rng randn Hdet Hsolve Hinv Hrand _ _ us n U D N k0 m g1 f g2 KV EF) as O.
    rewrite Ej in RV. unfold rows_of, fit_values in RV. cbn [map] in RV. injection RV as V1 _ V3 _ _ _.
    destruct O as (_ & _ & _ & _ & O1 & O2 & _). rewrite (mean_of_equal _ U k0 KV) in O1.
    assert (L2 : length (f_condslope f) = length (f_time_deriv f)) by (rewrite O1, O2, !map_length; reflexivity).
    assert (G : forall (x : XR), nth p (put_values idx (map (fun _ => x) us)) NaN = x).
    { intros x. unfold put_values in *. rewrite O1, map_length in LL. rewrite map_length. destruct (Nat.eqb_spec (length us) (length idx)) as [Q|Q].
      - rewrite (nth_map _ _ _ NaN 0) by lia. reflexivity.
      - destruct us as [|u [|u' t]]; cbn [map] in *; [cbn in LL; lia| |cbn in LL; lia]. rewrite (nth_map _ _ _ NaN 0%nat) by exact Hp. reflexivity. }
    rewrite V1, V3, O1, O2. split; apply G.
  Qed.

  Lemma bound_same mx q m : (forall row, In row (cf_max_breaks c) -> row = [Fin (IZR mx)]) ->
    max_of (fst (spread_max (length (series_flags (cf_calseries c))) (cf_max_breaks c))) q = Ok m -> m = Fin (IZR mx).
  Proof.
    intros H. assert (G : forall mb : list (list XR), (forall row, In row mb -> row = [Fin (IZR mx)]) -> max_of mb q = Ok m -> m = Fin (IZR mx)).
    { intros mb Hmb. unfold max_of. destruct (nth_error mb q) as [row|] eqn:E; [|discriminate]. apply nth_error_In in E. rewrite (Hmb _ E). intros Q. injection Q as <-. reflexivity. }
    apply G. unfold spread_max. destruct (Nat.ltb 1 _); [|exact H]. destruct (cf_max_breaks c) as [|row [|row' rest]]; cbn [fst]; [intros ? []| |exact H].
    intros row' Hr. apply repeat_spec in Hr. subst row'. rewrite (H row (or_introl eq_refl)). cbn [map]. f_equal. cbn. f_equal. ring.
  Qed.
  Lemma int_of_Z mx : py_int_of (VFlt (Fin (IZR mx))) = Ok mx.
  Proof. cbn. f_equal. apply Flocq.Core.Raux.Ztrunc_IZR. Qed.

  (* the number of the first profile with a sample *)
  Lemma first_sample th : StronglySorted Rlt (numbers_of nos idx) -> length (th_index th) = 10%nat -> valid (samples th) <> [] ->
    first_used c_from_sp src d nos idx th (hd 0 (map fst (valid (samples th)))).
  Proof.
    intros SN L10 NV. pose proof (samples_places c_from_sp src d nos idx th) as EP.
    assert (SO : StronglySorted Rle (map fst (valid (samples th)))).
    { apply valid_sorted. rewrite EP, map_map. change (map (fun x => fst (rowat c_from_sp src d nos idx x)) (all_places idx th)) with (map (fun q => nth (nth (fst q) idx 0%nat) nos 0) (all_places idx th)).
      rewrite <- numbers_places by exact L10. apply repeat_sorted, SN. }
    assert (IV : forall p i y e, (p < length idx)%nat -> In i (levels_of th p) -> ratio c_from_sp src d (nth p idx 0%nat) i = Fin y -> ratio_error c_from_sp src d (nth p idx 0%nat) i = Fin e ->
      In (nth (nth p idx 0%nat) nos 0, (y, e)) (valid (samples th))).
    { intros p i y e Hp Hi Ey Ee. assert (I : In (nth (nth p idx 0%nat) nos 0, Some (y, e)) (samples th)).
      { rewrite EP. apply in_map_iff. exists (p, Some i). split; [unfold rowat, sample; cbn [fst snd]; now rewrite Ey, Ee|]. apply in_places. split; [exact Hp|]. apply in_some, Hi. }
      revert I. generalize (samples th). intros rows. induction rows as [|[x [q|]] rows IH]; [intros []| |]; cbn [valid].
      - intros [I|I]; [left; injection I as -> ->; reflexivity|right; apply IH, I].
      - intros [I|I]; [discriminate|apply IH, I]. }
    destruct (valid (samples th)) as [|q rest] eqn:EV; [congruence|]. cbn [map hd] in *.
    assert (Iq : In q (valid (samples th))) by (rewrite EV; left; reflexivity).
    apply (samples_valid c_from_sp src d nos idx Herr) in Iq as (p & i & y & e & Hp & Hi & Eq & _ & ER).
    exists p, i, y. split; [exact Hp|]. split; [exact Hi|]. split; [exact ER|]. split; [rewrite Eq; reflexivity|].
    intros p' l' y' Hp' Hl' EY. assert (Hp2 : (p' < length idx)%nat) by lia.
    destruct (Herr (nth p' idx 0%nat) l' y' (nth_In _ _ Hp2) EY) as (e' & Ee & _).
    pose proof (IV p' l' y' e' Hp2 Hl' EY Ee) as IN.
    assert (LE : fst q <= nth (nth p' idx 0%nat) nos 0).
    { destruct IN as [IN|IN]; [rewrite IN; cbn; lra|]. inversion SO as [|? ? _ F]; subst. rewrite Forall_forall in F. apply F. apply in_map_iff. eexists. split; [|exact IN]. reflexivity. }
    rewrite Eq in LE. cbn [fst] in LE.
    assert (LT : nth (nth p' idx 0%nat) nos 0 < nth (nth p idx 0%nat) nos 0); [|lra].
    rewrite <- !numbers_nth by assumption. apply sorted_lt_nth; [exact SN|]. unfold numbers_of. rewrite map_length. lia.
  Qed.

  (* the drift *)
  Lemma drift_values g r g' a b mx : us = numbers_of nos idx -> StronglySorted Rlt (numbers_of nos idx) -> idx <> [] -> (forall x, k x = a + b * x) ->
    (forall row, In row (cf_max_breaks c) -> row = [Fin (IZR mx)]) -> whole cfg src pos d (Ok c) g = (Ok r, g') ->
    exists l per sd fi n x0, float_coords interp2d tbase pos = Ok l /\ cf_percent c = Some [[per]] /\
      select_series interp1d src (Some l) d c per idx = Ok sd /\ build_input c_from_sp cfg sd = Ok fi /\
      effective_number (samples (sd_thetas sd)) (fi_cov fi) n /\ first_used c_from_sp src d nos idx (sd_thetas sd) x0 /\ (-1 <= mx)%Z /\
      ((0 <= mx)%Z /\ 5 <= n -> forall j, In j idx ->
         entry1 (k_factor r) j = Fin (a + b * (nth j nos 0 + (x0 - hd 0 (numbers_of nos idx)))) /\ entry1 (k_deriv r) j = Fin b) /\
      (mx = (-1)%Z \/ n < 5 -> forall j, In j idx ->
         entry1 (k_factor r) j = Fin (weighted_mean (samples (sd_thetas sd))) /\ entry1 (k_deriv r) j = Fin 0).
  Proof.
    intros EU SN NI K HM E. pose proof (fits_here g r g' NI E) as (l & per & m & sd & fi & n & EL & EPc & EM & Hv & ES & EB & U & D & N & L10 & FH). cbv zeta in *.
    destruct (In_nth_error _ _ Hv) as (q & Hq). specialize (EM q Hq). apply (bound_same mx) in EM; [|exact HM]. subst m.
    pose proof (first_sample (sd_thetas sd) SN L10 (proj1 U)) as FU. set (rows := samples (sd_thetas sd)) in *.
    assert (SO : ascending (map fst (valid rows))).
    { apply ascending_le, valid_sorted. unfold rows. rewrite samples_places, map_map.
      change (map (fun x => fst (rowat c_from_sp src d nos idx x)) (all_places idx (sd_thetas sd))) with (map (fun q => nth (nth (fst q) idx 0%nat) nos 0) (all_places idx (sd_thetas sd))).
      rewrite <- numbers_places by exact L10. apply repeat_sorted, SN. }
    assert (KV : forall q, In q (valid rows) -> fst (snd q) = a + b * fst q).
    { intros w Hw. apply (samples_valid c_from_sp src d nos idx Herr) in Hw as (p' & i & y & e & Hp' & _ & -> & _ & Ey). cbn [fst snd]. destruct (Hfol _ _ _ (nth_In _ _ Hp') Ey) as (-> & _). apply K. }
    assert (LU : length us = length idx) by (rewrite EU; unfold numbers_of; apply map_length).
    exists l, per, sd, fi, n, (hd 0 (map fst (valid rows))). split; [exact EL|]. split; [exact EPc|]. split; [exact ES|]. split; [exact EB|]. split; [exact N|]. split; [exact FU|].
    assert (G : forall j, In j idx -> exists p f, (p < length idx)%nat /\ nth p idx 0%nat = j /\ (-1 <= mx)%Z /\
       ((0 <= mx)%Z /\ 5 <= n -> f_condslope f = map (fun u => Fin (a + b * (u + (hd 0 (map fst (valid rows)) - hd 0 us)))) us /\ f_time_deriv f = map (fun _ => Fin b) us) /\
       (mx = (-1)%Z \/ n < 5 -> offset_result rows us n f) /\
       entry1 (k_factor r) j = nth p (put_values idx (f_condslope f)) NaN /\ entry1 (k_deriv r) j = nth p (put_values idx (f_time_deriv f)) NaN).
    { intros j Hj. destruct (In_nth idx j 0%nat Hj) as (p & Hp & Ej). destruct (FH p Hp) as (f & g1 & g2 & EF & RV & LL). exists p, f. split; [exact Hp|]. split; [exact Ej|].
      pose proof EF as EF'. apply fit_max in EF' as (z & Ez & Hz). rewrite int_of_Z in Ez. injection Ez as <-. split; [exact Hz|].
      destruct (line_fit det solve inv least_squares rng randn Hdet Hsolve Hinv Hrand rows (fi_cov fi) us n U D N a b (Fin (IZR mx)) mx g1 f g2 (int_of_Z mx) SO KV EF) as (A1 & A2).
      split; [exact A1|]. split; [exact A2|].
      rewrite Ej in RV. unfold rows_of, fit_values in RV. cbn [map] in RV. injection RV as V1 _ V3 _ _ _. split; assumption. }
    assert (PV : forall (h : R -> XR) p, (p < length idx)%nat -> nth p (put_values idx (map h us)) NaN = h (nth (nth p idx 0%nat) nos 0)).
    { intros h p Hp. unfold put_values. rewrite map_length, LU, Nat.eqb_refl. rewrite (nth_map _ _ _ NaN 0) by lia. rewrite EU, numbers_nth by exact Hp. reflexivity. }
    split; [destruct (FH 0%nat) as (f & g1 & g2 & EF & _); [destruct idx; [congruence|cbn; lia]|]; apply fit_max in EF as (z & Ez & Hz); rewrite int_of_Z in Ez; injection Ez as <-; exact Hz|].
    split.
    - intros Hc j Hj. destruct (G j Hj) as (p & f & Hp & Ej & _ & A1 & _ & V1 & V3). destruct (A1 Hc) as (O1 & O2). rewrite V1, V3, O1, O2, !PV by exact Hp. rewrite Ej, EU. auto.
    - intros Hc j Hj. destruct (G j Hj) as (p & f & Hp & Ej & _ & _ & A2 & V1 & V3). destruct (A2 Hc) as (_ & _ & _ & _ & O1 & O2 & _). rewrite V1, V3, O1, O2, !PV by exact Hp. auto.
  Qed.

  (* where the factor is the ratio, the calibrated salinity is the mapped one *)
  Lemma salinity_values (r : calib XR) j l y cs : calibrated c_from_sp sp_from_c src r j -> (l < src_levels src)%nat ->
    ratio c_from_sp src d j l = Fin y -> entry1 (k_factor r) j = Fin y ->
    c_from_sp (entry2 (src_sal src) j l) (entry2 (src_ptmp src) j l) (Fin 0) = Fin cs -> cs <> 0 ->
    sp_from_c (c_from_sp (entry2 (m_cols (la_mapped_sal d)) j l) (entry2 (src_ptmp src) j l) (Fin 0)) (entry2 (src_ptmp src) j l) (Fin 0) = entry2 (m_cols (la_mapped_sal d)) j l ->
    entry2 (k_sal r) j l = entry2 (m_cols (la_mapped_sal d)) j l.
  Proof.
    intros C Hl ER EK EC NC RT. destruct (C l Hl) as (_ & _ & ES & _). cbv zeta in ES. rewrite ES, EK. change (nofZ 0) with (Fin 0) in *. rewrite EC.
    unfold ratio in ER. rewrite EC in ER. transitivity (sp_from_c (c_from_sp (entry2 (m_cols (la_mapped_sal d)) j l) (entry2 (src_ptmp src) j l) (Fin 0)) (entry2 (src_ptmp src) j l) (Fin 0)); [|exact RT]. f_equal. clear RT.
    destruct (c_from_sp (entry2 (m_cols (la_mapped_sal d)) j l) (entry2 (src_ptmp src) j l) (Fin 0)) as [x| | |] eqn:EM.
    - rewrite ndiv_fin in ER by exact NC. injection ER as <-. cbn. f_equal. field. exact NC.
    - exfalso. clear - ER NC. revert ER. cbn. destruct (Req_EM_T cs 0); [contradiction|]. repeat (destruct Rlt_dec); discriminate.
    - exfalso. clear - ER NC. revert ER. cbn. destruct (Req_EM_T cs 0); [contradiction|]. repeat (destruct Rlt_dec); discriminate.
    - exfalso. clear - ER. cbn in ER. discriminate.
  Qed.
End Recovery.

(* ---- the statements ---- *)
Theorem offset_recovered : forall det solve inv least_squares (rng : Type) (randn : nat -> rng -> list XR * rng) interp1d interp2d tbase c_from_sp sp_from_c,
  det_ok det -> solve_ok solve -> inv_ok inv -> randn_ok randn -> c_from_sp NaN NaN (Fin 0) = NaN ->
  forall longs lats lat_scale long_scale phi pv, lat_scale <> 0 -> long_scale <> 0 -> (pv = true -> phi <> 0) -> depths_given interp2d tbase longs lats ->
  forall src d c flags nos v idx, temperatures src -> cf_breaks c = [] -> cf_calseries c = map Fin flags -> right_rows flags (cf_max_breaks c) ->
  src_no src = map Fin nos -> v <> 0 -> lists_series flags v idx ->
  forall k, follows c_from_sp src d nos idx (fun _ => k) ->
  forall g r g', piecewisefit det solve inv least_squares rng randn interp1d interp2d tbase c_from_sp sp_from_c
    (mkCovConfig (Fin long_scale) (Fin lat_scale) (Fin phi) pv) src (mkPositions [map Fin longs] [map Fin lats]) d (Ok c) g = (Ok r, g') ->
  forall j, In j idx -> entry1 (k_factor r) j = Fin k /\ entry1 (k_deriv r) j = Fin 0.
Proof.
  intros. destruct (distinct_exists (numbers_of nos idx)) as (us & Hus).
  eapply (offset_values det solve inv least_squares rng randn interp1d interp2d tbase c_from_sp sp_from_c) with (k := fun _ => k) (us := us) (flags := flags) (v := v) (longs := longs) (lats := lats) (lat_scale := lat_scale) (long_scale := long_scale) (phi := phi) (pv := pv) (src := src) (d := d) (c := c); try eassumption; try (eapply follows_errors; eassumption); intros; reflexivity.
Qed.

Theorem drift_recovered : forall det solve inv least_squares (rng : Type) (randn : nat -> rng -> list XR * rng) interp1d interp2d tbase c_from_sp sp_from_c,
  det_ok det -> solve_ok solve -> inv_ok inv -> randn_ok randn -> c_from_sp NaN NaN (Fin 0) = NaN ->
  forall longs lats lat_scale long_scale phi pv, lat_scale <> 0 -> long_scale <> 0 -> (pv = true -> phi <> 0) -> depths_given interp2d tbase longs lats ->
  forall src d c flags nos v idx mx, temperatures src -> cf_breaks c = [] -> cf_calseries c = map Fin flags -> right_rows flags (cf_max_breaks c) ->
  (forall row, In row (cf_max_breaks c) -> row = [Fin (IZR mx)]) ->
  src_no src = map Fin nos -> v <> 0 -> lists_series flags v idx -> idx <> [] -> StronglySorted Rlt (numbers_of nos idx) ->
  forall a b, follows c_from_sp src d nos idx (fun x => a + b * x) ->
  let cfg := mkCovConfig (Fin long_scale) (Fin lat_scale) (Fin phi) pv in
  let pos := mkPositions [map Fin longs] [map Fin lats] in
  forall g r g', piecewisefit det solve inv least_squares rng randn interp1d interp2d tbase c_from_sp sp_from_c cfg src pos d (Ok c) g = (Ok r, g') ->
  exists l per sd fi n x0, float_coords interp2d tbase pos = Ok l /\ cf_percent c = Some [[per]] /\
    select_series interp1d src (Some l) d c per idx = Ok sd /\ build_input c_from_sp cfg sd = Ok fi /\
    let rows := samples c_from_sp src d nos idx (sd_thetas sd) in
    effective_number rows (fi_cov fi) n /\ first_used c_from_sp src d nos idx (sd_thetas sd) x0 /\ (-1 <= mx)%Z /\
    ((0 <= mx)%Z /\ 5 <= n -> forall j, In j idx ->
       entry1 (k_factor r) j = Fin (a + b * (nth j nos 0 + (x0 - hd 0 (numbers_of nos idx)))) /\ entry1 (k_deriv r) j = Fin b) /\
    (mx = (-1)%Z \/ n < 5 -> forall j, In j idx ->
       entry1 (k_factor r) j = Fin (weighted_mean rows) /\ entry1 (k_deriv r) j = Fin 0).
Proof.
  intros. cbv zeta.
  eapply (drift_values det solve inv least_squares rng randn interp1d interp2d tbase c_from_sp sp_from_c) with (k := fun x => a + b * x) (us := numbers_of nos idx) (flags := flags) (v := v) (longs := longs) (lats := lats) (lat_scale := lat_scale) (long_scale := long_scale) (phi := phi) (pv := pv) (src := src) (d := d) (c := c); try eassumption; try (apply ascending_self; assumption); try (eapply follows_errors; eassumption); intros; reflexivity.
Qed.

(* the salinity of a profile whose factor is the ratio *)
Theorem salinity_recovered : forall det solve inv least_squares (rng : Type) (randn : nat -> rng -> list XR * rng) interp1d interp2d tbase c_from_sp sp_from_c
  cfg src pos d c flags nos v idx, rectangular src -> cf_breaks c = [] -> cf_calseries c = map Fin flags -> right_rows flags (cf_max_breaks c) ->
  src_no src = map Fin nos -> v <> 0 -> lists_series flags v idx ->
  forall g r g', piecewisefit det solve inv least_squares rng randn interp1d interp2d tbase c_from_sp sp_from_c cfg src pos d (Ok c) g = (Ok r, g') ->
  forall j l y cs, In j idx -> (j < length nos)%nat -> (l < src_levels src)%nat -> let t := entry2 (src_ptmp src) j l in let s := entry2 (m_cols (la_mapped_sal d)) j l in
  ratio c_from_sp src d j l = Fin y -> entry1 (k_factor r) j = Fin y ->
  c_from_sp (entry2 (src_sal src) j l) t (Fin 0) = Fin cs -> cs <> 0 -> sp_from_c (c_from_sp s t (Fin 0)) t (Fin 0) = s ->
  entry2 (k_sal r) j l = s.
Proof.
  intros until sp_from_c. intros cfg src pos d c flags nos v idx HRe HB HF HR Hno NZ LS g r g' E j l y cs Hj Hjn Hl t s ER EK EC NC RT.
  destruct (c70_profiles _ _ _ _ _ _ _ _ _ _ _ _ _ _ _ _ _ _ _ _ HRe HB HF E) as (_ & P).
  destruct (P j) as (P1 & _). { rewrite Hno, map_length. exact Hjn. }
  eapply salinity_values; try eassumption. apply P1; [exact HR|]. exists v. split; [|exact NZ]. destruct LS as (_ & LS). apply LS, Hj.
Qed.
