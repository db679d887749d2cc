(* The calibration completes *)
From Coq Require Import String Ascii.
From Coq Require Import ZArith List Bool Lia Reals Lra Sorted Permutation FunctionalExtensionality.
From Verif Require Import Num Np NumFacts NpFacts Utilities Finders Stats FitCond Topo Helper MapProfile Mapping Config Calib
  Spec_Utilities Spec_Finders Spec_Stats Spec_FitCond Spec_Calib Spec_Drift LinR
  Proofs_Besthist Proofs_Stats2 Proofs_Stats3 Proofs_Thetas3 Proofs_FC1 Proofs_FC2 Proofs_FC3 Proofs_FC9 Proofs_FC11 Proofs_Calib Proofs_Calib2 Proofs_Calib3 Proofs_Calib4 Proofs_Calib6 Proofs_Calib7 Proofs_Calib8 Proofs_Calib9
  Proofs_Drift1 Proofs_Drift2 Proofs_Drift3.
Import ListNotations.
Local Open Scope R_scope.

Lemma put_total {A} idx (vals l : list A) : (forall i, In i idx -> (i < length l)%nat) -> length vals = length idx -> put idx vals l = Ok (scatter idx vals l).
Proof.
  intros B L. unfold put. rewrite L, Nat.eqb_refl.
  assert (F : forallb (fun i => Nat.ltb i (length l)) idx = true) by (apply forallb_forall; intros i Hi; apply Nat.ltb_lt, B, Hi). now rewrite F.
Qed.
Lemma index_total {A} (x : A) l idx : (forall i, In i idx -> (i < length l)%nat) -> index_array x l idx = Ok (take x l idx).
Proof. intros B. unfold index_array. assert (F : forallb (fun i => Nat.ltb i (length l)) idx = true) by (apply forallb_forall; intros i Hi; apply Nat.ltb_lt, B, Hi). now rewrite F. Qed.

Definition sized (n : nat) (r : calib XR) : Prop :=
  forall m, In m [k_factor r; k_factor_err r; k_deriv r; k_deriv_err r; k_sta_mean r; k_sta_rms r] -> length m = n.

Lemma record_total n idx (f : @fit XR) r : sized n r -> (forall i, In i idx -> (i < n)%nat) -> (forall a, In a (arrays_of f) -> length a = length idx) ->
  exists r1, record_fit idx (Fitted f) r = Ok (r1, f) /\ sized n r1.
Proof.
  intros S B L. cbn [record_fit].
  assert (B' : forall m, In m [k_factor r; k_factor_err r; k_deriv r; k_deriv_err r; k_sta_mean r; k_sta_rms r] -> forall i, In i idx -> (i < length m)%nat).
  { intros m Hm i Hi. rewrite (S m Hm). apply B, Hi. }
  rewrite !put_total; [|apply B'; cbn; tauto|apply L; cbn; tauto|apply B'; cbn; tauto|apply L; cbn; tauto|apply B'; cbn; tauto|apply L; cbn; tauto|apply B'; cbn; tauto|apply L; cbn; tauto|apply B'; cbn; tauto|apply L; cbn; tauto|apply B'; cbn; tauto|apply L; cbn; tauto].
  cbn [bind]. eexists. split; [reflexivity|]. intros m Hm. cbn [k_factor k_factor_err k_deriv k_deriv_err k_sta_mean k_sta_rms In] in Hm.
  destruct Hm as [<-|[<-|[<-|[<-|[<-|[<-|[]]]]]]]; rewrite scatter_length; apply S; cbn; tauto.
Qed.

Lemma picked_cols (cols : list (list XR)) f idx : (forall j l, entry2 cols j l = oX (f l j)) -> of_cols (take [] cols idx) = fun i p => oX (picked f idx i p).
Proof.
  intros H. apply functional_extensionality. intros i. apply functional_extensionality. intros p. unfold of_cols, picked, take.
  destruct (nth_error idx p) as [j|] eqn:E.
  - assert (Hp : (p < length idx)%nat) by (apply nth_error_Some; congruence). rewrite (nth_map _ _ _ [] 0%nat) by exact Hp. apply (nth_error_nth _ _ 0%nat) in E. rewrite E. apply H.
  - apply nth_error_None in E. rewrite (nth_overflow (map _ idx)) by (rewrite map_length; exact E). destruct i; reflexivity.
Qed.

Lemma samples_length c_from_sp src d nos idx th : length (th_index th) = 10%nat -> length (Spec_Drift.samples c_from_sp src d nos idx th) = (10 * length idx)%nat.
Proof.
  intros L10. rewrite <- (map_length (fst : row -> R)). rewrite samples_places, map_map. change (fun x => fst (rowat c_from_sp src d nos idx x)) with (fun q : nat * option nat => nth (nth (fst q) idx 0%nat) nos 0).
  rewrite <- numbers_places by exact L10. unfold numbers_of. clear. induction idx as [|i q IH]; [reflexivity|]. cbn [map flat_map length]. rewrite app_length, IH, repeat_length. lia.
Qed.
Lemma series_exists flags v : exists idx, lists_series flags v idx.
Proof.
  exists (filter (fun j => match nth_error flags j with Some w => if Req_EM_T w v then true else false | None => false end) (seq 0 (length flags))).
  split.
  - generalize 0%nat, (length flags). intros a n. revert a. induction n as [|n IH]; intros a; cbn [seq filter]; [constructor|].
    assert (F : Forall (lt a) (filter (fun j => match nth_error flags j with Some w => if Req_EM_T w v then true else false | None => false end) (seq (S a) n))).
    { apply Forall_forall. intros j Hj. apply filter_In in Hj as (Hj & _). apply in_seq in Hj. lia. }
    match goal with |- StronglySorted _ (if ?b then _ else _) => destruct b end; [constructor; [apply IH|exact F]|apply IH].
  - intros j. rewrite filter_In, in_seq. split.
    + intros (_ & H). destruct (nth_error flags j) as [w|]; [|discriminate]. destruct (Req_EM_T w v) as [->|]; [reflexivity|discriminate].
    + intros E. split; [assert (j < length flags)%nat by (apply nth_error_Some; congruence); lia|]. rewrite E. destruct (Req_EM_T v v); [reflexivity|congruence].
Qed.

Section Complete.
  Variable det : nat -> (nat -> nat -> XR) -> XR.
  Variable solve : nat -> nat -> (nat -> nat -> XR) -> (nat -> nat -> XR) -> res (nat -> nat -> XR).
  Variable inv : nat -> (nat -> nat -> XR) -> res (nat -> nat -> XR).
  Variable least_squares : (list XR -> res (list XR)) -> list XR -> res (list (list XR) * list XR).
  Variable rng : Type.
  Variable randn : nat -> rng -> list XR * rng.
  Variable interp1d : list XR -> list XR -> XR -> res XR.
  Variable interp2d : list XR -> list XR -> list (list Z) -> XR -> XR -> res XR.
  Variable tbase : binfile.
  Variable c_from_sp : XR -> XR -> XR -> XR.
  Variable sp_from_c : XR -> XR -> XR -> XR.
  Hypothesis Hdet : det_ok det.
  Hypothesis Hsolve : solve_ok solve.
  Hypothesis Hinv : inv_ok inv.
  Hypothesis Hrand : randn_ok randn.
  Hypothesis Hnan : c_from_sp NaN NaN (Fin 0) = NaN.
  Hypothesis Hint : forall xs ys x, exists v, interp1d xs ys x = Ok v.
  Variables (longs lats : list R) (lat_scale long_scale phi : R) (pv : bool) (l : list (coord XR)).
  Hypothesis Hlat : lat_scale <> 0.
  Hypothesis Hlong : long_scale <> 0.
  Hypothesis Hphi : pv = true -> phi <> 0.
  Hypothesis Hdep : depths_given interp2d tbase longs lats.
  Notation pos := (mkPositions [map Fin longs] [map Fin lats]).
  Notation cfg := (mkCovConfig (Fin long_scale) (Fin lat_scale) (Fin phi) pv).
  Hypothesis HL : float_coords interp2d tbase pos = Ok l.
  Variables (src : source XR) (d : mapped XR) (c : calfile XR) (nos flags : list R) (sal tmp pre la : nat -> nat -> option R) (tlt tgt plt pgt : option R) (pct : R) (mx : Z).
  Hypothesis Hrect : rectangular src.
  Hypothesis Hno : src_no src = map Fin nos.
  Hypothesis Hsal : forall j l, entry2 (src_sal src) j l = oX (sal l j).
  Hypothesis Htmp : forall j l, entry2 (src_ptmp src) j l = oX (tmp l j).
  Hypothesis Hpre : forall j l, entry2 (src_pres src) j l = oX (pre l j).
  Hypothesis Hla : forall j l, entry2 (m_cols (la_ptmp d)) j l = oX (la l j).
  Hypothesis Hcols : forall m, In m [la_ptmp d; la_mapped_sal d; la_map_sal_errors d] -> length (m_cols m) = length nos.
  Hypothesis Hpos : length longs = length nos.
  Hypothesis Hw1 : cf_theta_lt c = bound tlt.
  Hypothesis Hw2 : cf_theta_gt c = bound tgt.
  Hypothesis Hw3 : cf_pres_lt c = bound plt.
  Hypothesis Hw4 : cf_pres_gt c = bound pgt.
  Notation levels := (src_levels src).
  Notation data := (series_of sal tmp pre la tlt tgt plt pgt).
  Notation samples := (samples c_from_sp src d nos).

  Lemma bound_window o : window_bound (bound o) = Ok (option_map Fin o).
  Proof. destruct o; reflexivity. Qed.

  Lemma select_total idx th mats : (forall j, In j idx -> (j < length nos)%nat) -> thetas_run interp1d (data idx) levels (length idx) pct = Ok (th, mats) ->
    exists sd, select_series interp1d src (Some l) d c (Fin pct) idx = Ok sd /\ sd_thetas sd = th.
  Proof.
    intros B ET. pose proof HL as HL'. apply coords_order in HL' as (_ & LL & _).
    assert (R1 : forall cols, In cols [src_sal src; src_ptmp src; src_pres src] -> forall i, In i idx -> (i < length cols)%nat).
    { intros cols Hc i Hi. destruct (Hrect cols Hc) as (-> & _). rewrite Hno, map_length. apply B, Hi. }
    assert (R2 : forall m, In m [la_ptmp d; la_mapped_sal d; la_map_sal_errors d] -> forall i, In i idx -> (i < length (m_cols m))%nat).
    { intros m Hm i Hi. rewrite (Hcols m Hm). apply B, Hi. }
    unfold select_series. cbn [bind].
    rewrite (index_total _ l) by (intros i Hi; rewrite LL, Hpos; apply B, Hi). cbn [bind].
    rewrite (index_total _ (src_sal src)), (index_total _ (src_ptmp src)), (index_total _ (src_pres src)) by (apply R1; cbn; tauto). cbn [bind].
    rewrite (index_total _ (m_cols (la_ptmp d))), (index_total _ (m_cols (la_mapped_sal d))), (index_total _ (m_cols (la_map_sal_errors d))) by (apply R2; cbn; tauto). cbn [bind].
    rewrite Hw1, Hw2, Hw3, Hw4, !bound_window. cbn [bind].
    rewrite (picked_cols _ _ idx Hsal), (picked_cols _ _ idx Htmp), (picked_cols _ _ idx Hpre), (picked_cols _ _ idx Hla).
    unfold thetas_run in ET. cbn [series_of d_sal d_ptmp d_pres d_la d_tlt d_tgt d_plt d_pgt] in ET. rewrite ET. cbn [bind].
    rewrite (index_total _ (src_no src)) by (intros i Hi; rewrite Hno, map_length; apply B, Hi). cbn [bind]. eexists. split; reflexivity.
  Qed.

  (* the temperatures of the ten rows *)
  Lemma ten_temperatures idx per sd : select_series interp1d src (Some l) d c per idx = Ok sd ->
    exists t, (forall i p, of_cols (ten sd (sd_ptmp sd)) i p = oX (t i p)) /\
      forall i p x, t i p = Some x -> exists j n, In j idx /\ tmp n j = Some x.
  Proof.
    intros ES. pose proof ES as SP. apply select_parts in SP as (_ & E2 & _ & _ & E5 & _ & _ & L10).
    assert (LN : length (sd_no sd) = length idx) by (rewrite E5; unfold take; apply map_length).
    assert (TT : forall i p, exists o, of_cols (ten sd (sd_ptmp sd)) i p = oX o /\ forall x, o = Some x -> exists j n, In j idx /\ tmp n j = Some x).
    { intros i' p. unfold of_cols, ten. rewrite E2.
      destruct (Nat.lt_ge_cases p (length (sd_no sd))) as [Hp|Hp].
      - rewrite nth_map_seq by exact Hp. unfold ten_rows. destruct (Nat.lt_ge_cases i' (length (valid_levels (sd_thetas sd) p))) as [Hv|Hv].
        + rewrite app_nth1 by (rewrite map_length; exact Hv). rewrite (nth_map _ _ _ nnan 0%nat) by exact Hv.
          rewrite LN in Hp. unfold take. rewrite (nth_map _ _ _ [] 0%nat) by exact Hp. exists (tmp (nth i' (valid_levels (sd_thetas sd) p) 0%nat) (nth p idx 0%nat)).
          split; [apply Htmp|]. intros x E. exists (nth p idx 0%nat), (nth i' (valid_levels (sd_thetas sd) p) 0%nat). split; [apply nth_In, Hp|exact E].
        + exists None. split; [|discriminate]. rewrite app_nth2 by (rewrite map_length; exact Hv). rewrite map_length.
          destruct (nth_in_or_default (i' - length (valid_levels (sd_thetas sd) p)) (repeat (@nnan XR XR_Num) (10 - length (valid_levels (sd_thetas sd) p))) nnan) as [I|E]; [|exact E].
          apply repeat_spec in I. exact I.
      - exists None. split; [|discriminate]. rewrite (nth_overflow (map _ _)) by (rewrite map_length, seq_length; exact Hp). destruct i'; reflexivity. }
    exists (fun i p => match of_cols (ten sd (sd_ptmp sd)) i p with Fin x => Some x | _ => None end). split.
    - intros i p. destruct (TT i p) as ([x|] & E & _); rewrite E; reflexivity.
    - intros i p x. destruct (TT i p) as ([y|] & E & K); rewrite E; cbn [oX]; [|discriminate]. intros Q. injection Q as ->. apply K. reflexivity.
  Qed.
  Lemma input_total idx per sd : select_series interp1d src (Some l) d c per idx = Ok sd -> (forall j i x, In j idx -> tmp i j = Some x -> -2 <= x <= 30) ->
    exists fi, build_input c_from_sp cfg sd = Ok fi.
  Proof.
    intros ES HX. destruct (ten_temperatures idx per sd ES) as (t & HT & K).
    set (depth := fun j => match c_2 (nth j l (mkCoord NaN NaN NaN)) with Fin z => z | _ => 1 end).
    assert (HD : forall j, (j < length longs)%nat -> c_2 (nth j l (mkCoord NaN NaN NaN)) = Fin (depth j) /\ depth j <> 0).
    { intros j' Hj'. destruct (Hdep l HL j' Hj') as (z & Ez & NZ). unfold depth. rewrite Ez. auto. }
    assert (TN : table_needed 10 (length idx) t).
    { intros _ i' p Hi' Hp. destruct (t i' p) as [x|] eqn:Et; [|exact I]. cbn [in_table]. destruct (K _ _ _ Et) as (j & n & Hj & E). exact (HX j n x Hj E). }
    destruct (calibration_scales interp1d interp2d tbase c_from_sp src longs lats depth l d c per idx sd lat_scale long_scale phi pv t HL HD Hlat Hlong Hphi ES HT TN) as (fi' & EB' & _).
    exists fi'. exact EB'.
  Qed.

  Notation ready := (ready interp1d c_from_sp src d nos flags sal tmp pre la tlt tgt plt pgt pct mx).
  Hypothesis Hmx : mx = (-1)%Z \/ mx = 0%Z.
  Hypothesis HB : cf_breaks c = [].
  Hypothesis HF : cf_calseries c = map Fin flags.
  Hypothesis Hfl : (length flags <= length nos)%nat.

  Lemma sampled_valid idx th p : errors_given c_from_sp src d idx -> sampled c_from_sp src d idx th p ->
    exists q, In (nth (nth p idx 0%nat) nos 0, q) (valid (samples idx th)).
  Proof.
    intros HE (Hp & i & y & Hi & Ey). destruct (HE _ _ _ (nth_In _ _ Hp) Ey) as (e & Ee & NZ). exists (y, e).
    assert (I : In (nth (nth p idx 0%nat) nos 0, Some (y, e)) (samples idx th)).
    { rewrite samples_places. apply in_map_iff. exists (p, Some i). split; [unfold rowat, Spec_Drift.sample; cbn [fst snd]; now rewrite Ey, Ee|]. apply in_places. split; [exact Hp|]. apply in_some, Hi. }
    revert I. generalize (samples idx th). intros rows. induction rows as [|[x [q|]] rows IH]; [intros []| |]; cbn [valid].
    - intros [I|I]; [left; injection I as -> ->; reflexivity|right; apply IH, I].
    - intros [I|I]; [discriminate|apply IH, I].
  Qed.

  Lemma series_total v idx i mb r g : v <> 0 -> ready v -> lists_series flags v idx -> idx <> [] ->
    nth_error mb i = Some [Fin (IZR mx)] -> sized (length nos) r ->
    exists r' g', calibrate_series det solve inv least_squares rng randn interp1d c_from_sp sp_from_c cfg src (Some l) d c (Fin pct) mb i (Fin v) r g = (Ok r', g') /\ sized (length nos) r'.
  Proof.
    intros NZ RD LS NI EM SZ. pose proof (calindex_fin _ _ _ LS) as EI.
    destruct (RD idx LS NI) as (ND & HE & HW & (lo & hi & HP & H10) & HT & HX & HS).
    assert (B : forall j, In j idx -> (j < length nos)%nat).
    { intros j Hj. apply (proj2 LS) in Hj. assert (j < length flags)%nat by (apply nth_error_Some; congruence). lia. }
    destruct (thetas_succeed interp1d (data idx) levels (length idx) pct lo hi Hint HW HP H10 HT) as (th & mats & ET).
    destruct (HS th mats ET) as (S1 & S2). destruct (select_total idx th mats B ET) as (sd & ES & Eth).
    destruct (input_total idx _ sd ES HX) as (fi & EB).
    assert (FT : exists f g', fit_cond det solve inv least_squares rng randn (fi_x fi) (fi_y fi) (fi_err fi) (fi_cov fi) [FitCond.VStr "max_no_breaks"; VFlt (Fin (IZR mx))] g = (Ok (Fitted f), g')).
    { rewrite (fit_samples interp1d c_from_sp Hnan src d c nos idx Hno HE cfg l (Fin pct) sd fi det solve inv least_squares rng randn _ g ES EB).
      rewrite Eth. set (rows := samples idx th). pose proof (select_parts _ _ _ _ _ _ _ _ ES) as (_ & _ & _ & _ & _ & _ & _ & L10). rewrite Eth in L10.
      destruct S1 as (p0 & S1). destruct (sampled_valid idx th p0 HE S1) as (q0 & V0).
      assert (U : usable rows) by (apply (follows_usable c_from_sp src d nos idx HE); intros V; rewrite V in V0; destruct V0).
      destruct (distinct_exists (map fst rows)) as (us & Hus).
      destruct (number_exists rows (fi_cov fi)) as (n & Hn).
      { intros a b Ha Hb. unfold rows in Ha, Hb. rewrite (samples_length _ _ _ _ _ _ L10) in Ha, Hb.
        eapply (cov_positive interp1d interp2d tbase c_from_sp longs lats lat_scale long_scale phi pv Hlat Hlong Hphi Hdep src d c idx); try eassumption.
        intros j0 l0. eexists. apply Htmp. }
      rewrite (fit_float _ _ _ _ _ _ _ _ _ _ _ _ _ (int_of_Z mx)).
      destruct Hmx as [Em|Em]; rewrite Em.
      - destruct (choice_constant det solve inv least_squares rng randn rows (fi_cov fi) us n (FitCond.VStr "max_no_breaks") (-1) g) as (f & E & _); auto using name_ok; [lia|]. exists f, g. exact E.
      - destruct (Rlt_le_dec n 5) as [V|V].
        + destruct (choice_constant det solve inv least_squares rng randn rows (fi_cov fi) us n (FitCond.VStr "max_no_breaks") 0 g) as (f & E & _); auto using name_ok; try lia. exists f, g. exact E.
        + destruct (sorted_positions_exists rows) as (xs & Hxs). destruct (S2 Em) as (p & q & NPQ & Sp & Sq).
          assert (SP : spread rows).
          { destruct (sampled_valid idx th p HE Sp) as (qp & Vp). destruct (sampled_valid idx th q HE Sq) as (qq & Vq).
            exists (nth (nth p idx 0%nat) nos 0), (nth (nth q idx 0%nat) nos 0). split; [apply in_map_iff; eexists; split; [|exact Vp]; reflexivity|]. split; [apply in_map_iff; eexists; split; [|exact Vq]; reflexivity|].
            destruct Sp as (Hp & _). destruct Sq as (Hq & _). rewrite <- !numbers_nth by assumption. intros E. apply NPQ.
            apply (proj1 (NoDup_nth (numbers_of nos idx) 0) ND); [unfold numbers_of; rewrite map_length; exact Hp|unfold numbers_of; rewrite map_length; exact Hq|exact E]. }
          destruct (choice_line det solve inv least_squares rng randn rows (fi_cov fi) xs us n (FitCond.VStr "max_no_breaks") 0) as (c1 & s1 & _ & _ & K); auto using name_ok; try lia. }
    destruct FT as (f & g' & EF).
    destruct (distinct_exists (numbers_of nos idx)) as (us & Hus).
    pose proof (fit_of_numbers det solve inv least_squares rng randn interp1d c_from_sp cfg src (Some l) d c (Fin pct) (Fin (IZR mx)) idx f nos us Hno Hus) as EX.
    destruct EX as (EX & _). { exists sd, fi, g, g'. auto. }
    pose proof (distinct_length _ _ Hus ND) as LU. unfold numbers_of in LU. rewrite map_length in LU.
    destruct (record_total (length nos) idx f r SZ B) as (r1 & ER & S').
    { intros a Ha. rewrite (fit_lengths _ _ _ _ _ _ _ _ _ _ _ _ _ _ EF a Ha), EX, map_length. exact LU. }
    unfold calibrate_series. rewrite HF, EI, ES. cbn [bind]. rewrite EB. destruct idx as [|j0 idx'] eqn:EIdx; [congruence|]. cbn [bind]. rewrite <- EIdx in *.
    unfold fit_series. rewrite HB. unfold max_of. rewrite EM, EF. cbn [bind]. rewrite ER. cbn [bind]. eexists _, _. split; [reflexivity|]. exact S'.
  Qed.

  Hypothesis Hready : forall v, v <> 0 -> In v flags -> ready v.
  Lemma all_total mb : forall vs i r g, (forall v, In v vs -> exists u, v = Fin u /\ In u flags /\ u <> 0) ->
    (forall q, (q < length vs)%nat -> nth_error mb (i + q) = Some [Fin (IZR mx)]) -> sized (length nos) r ->
    exists r' g', calibrate_all det solve inv least_squares rng randn interp1d c_from_sp sp_from_c cfg src (Some l) d c (Fin pct) mb i vs r g = (Ok r', g').
  Proof.
    induction vs as [|v vs IH]; intros i r g HV EM SZ; cbn [calibrate_all]; [eauto|].
    destruct (HV v (or_introl eq_refl)) as (u & -> & Hu & NZ).
    destruct (series_exists flags u) as (idx & LS).
    assert (NI : idx <> []). { destruct (In_nth_error _ _ Hu) as (j & Hj). apply (proj2 LS) in Hj. intros ->. destruct Hj. }
    destruct (series_total u idx i mb r g NZ (Hready u NZ Hu) LS NI) as (r' & g1 & E & SZ').
    { rewrite <- (EM 0%nat) by (cbn; lia). f_equal. lia. }
    { exact SZ. }
    rewrite E. apply IH.
    - intros w Hw. apply HV. right. exact Hw.
    - intros q Hq. rewrite <- (EM (S q)) by (cbn; lia). f_equal. lia.
    - exact SZ'.
  Qed.

  Hypothesis HH : selected_hist d <> [].
  Hypothesis HPc : cf_percent c = Some [[Fin pct]].
  Hypothesis HR : right_rows flags (cf_max_breaks c).
  Hypothesis HM : forall row, In row (cf_max_breaks c) -> row = [Fin (IZR mx)].
  Hypothesis HM0 : cf_max_breaks c <> [].
  Lemma whole_total g : exists r g', piecewisefit det solve inv least_squares rng randn interp1d interp2d tbase c_from_sp sp_from_c cfg src pos d (Ok c) g = (Ok r, g').
  Proof.
    pose proof (proj1 (right_accepted c flags HF) HR) as A. unfold accepted in A. pose proof (proj2 (spread_ok _ _) A) as AO.
    unfold piecewisefit. destruct (selected_hist d) as [|h0 hs]; [congruence|]. rewrite HL. cbn [bind]. rewrite HPc. cbn [bind].
    destruct (spread_max (length (series_flags (cf_calseries c))) (cf_max_breaks c)) as [mb ok] eqn:ESp. cbn [snd] in AO. subst ok. rewrite HB. cbn [check_breaks bind andb].
    apply all_total.
    - intros v Hv. rewrite HF in Hv. apply flags_in in Hv. exact Hv.
    - intros q Hq. cbn [Nat.add]. assert (G : forall row, In row mb -> row = [Fin (IZR mx)]).
      { intros row Hr. unfold spread_max in ESp. destruct (Nat.ltb 1 _).
        - destruct (cf_max_breaks c) as [|row0 [|row1 rest]]; apply (f_equal fst) in ESp; cbn [fst] in ESp; subst mb; [destruct Hr| |apply HM, Hr].
          apply repeat_spec in Hr. subst row. rewrite (HM row0 (or_introl eq_refl)). cbn [map]. f_equal. cbn. f_equal. ring.
        - apply (f_equal fst) in ESp; cbn [fst] in ESp; subst mb. apply HM, Hr. }
      assert (LB : (q < length mb)%nat).
      { unfold spread_max in ESp. destruct (Nat.ltb_spec 1 (length (series_flags (cf_calseries c)))) as [L1|L1].
        - destruct (cf_max_breaks c) as [|row0 [|row1 rest]] eqn:EMB; pose proof (f_equal snd ESp) as EN; apply (f_equal fst) in ESp; cbn [fst snd] in *; subst mb; [congruence|rewrite repeat_length; exact Hq|apply Nat.eqb_eq in EN; rewrite EN; exact Hq].
        - apply (f_equal fst) in ESp; cbn [fst] in ESp; subst mb. destruct (cf_max_breaks c); [congruence|cbn [length]; lia]. }
      destruct (nth_error mb q) as [row|] eqn:E; [|apply nth_error_None in E; lia]. f_equal. apply G. apply nth_error_In in E. exact E.
    - assert (EN : length (src_pres src) = length nos) by (destruct (Hrect (src_pres src)) as (-> & _); [cbn; tauto|rewrite Hno; apply map_length]).
      intros m Hm. unfold blank_calib in Hm. cbn [k_factor k_factor_err k_deriv k_deriv_err k_sta_mean k_sta_rms In] in Hm.
      destruct Hm as [<-|[<-|[<-|[<-|[<-|[<-|[]]]]]]]; rewrite repeat_length; exact EN.
  Qed.
End Complete.
