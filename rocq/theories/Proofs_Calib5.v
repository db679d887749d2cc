(* Calibration files: independence of the series, order of the profiles, failures, files *)
From Coq Require Import String Ascii.
From Coq Require Import ZArith List Bool Lia Reals Lra Sorted.
From Verif Require Import Num Np NumFacts NpFacts Utilities Finders Stats FitCond Topo Helper MapProfile Mapping Config Calib Spec_FitCond Proofs_Utilities Proofs_FC3
  Spec_Calib Proofs_Calib Proofs_Calib2 Proofs_Calib3 Proofs_Calib4.
Import ListNotations.
Local Open Scope R_scope.

Section Calib.
  Notation mat := (nat -> nat -> XR).
  Variable det : nat -> mat -> XR.
  Variable solve : nat -> nat -> mat -> mat -> res mat.
  Variable inv : nat -> mat -> res mat.
  Variable least_squares : (list XR -> res (list XR)) -> list XR -> res (list (list XR) * list XR).
  Variable rng : Type.
  Variable randn : nat -> rng -> list XR * rng.
  Variable interp1d : list XR -> list XR -> XR -> res XR.
  Variable interp2d : list XR -> list XR -> list (list Z) -> XR -> XR -> res XR.
  Variable tbase : binfile.
  Variable c_from_sp : XR -> XR -> XR -> XR.
  Variable sp_from_c : XR -> XR -> XR -> XR.
  Notation whole := (piecewisefit det solve inv least_squares rng randn interp1d interp2d tbase c_from_sp sp_from_c).
  Notation fit_of := (fit_of det solve inv least_squares rng randn interp1d c_from_sp).

  Lemma nth_of_error {A} (l l' : list A) j dflt : nth_error l j = nth_error l' j -> nth j l dflt = nth j l' dflt.
  Proof. intros E. rewrite <- !nth_default_eq. unfold nth_default. now rewrite E. Qed.
  Lemma take_same {A} (dflt : A) l l' idx : (forall j, In j idx -> nth j l dflt = nth j l' dflt) -> take dflt l idx = take dflt l' idx.
  Proof. intros E. unfold take. apply map_ext_in. exact E. Qed.
  Lemma select_same src src' d d' l l' c per idx sd sd' : src_levels src = src_levels src' ->
    (forall j, In j idx -> same_profile src src' d d' l l' j) ->
    select_series interp1d src (Some l) d c per idx = Ok sd -> select_series interp1d src' (Some l') d' c per idx = Ok sd' -> sd = sd'.
  Proof.
    intros HL A E E'. unfold select_series in E, E'. cbn [bind] in E, E'.
    apply bind_ok in E as (a1 & P1 & E). apply bind_ok in E' as (b1 & Q1 & E').
    apply bind_ok in E as (a2 & P2 & E). apply bind_ok in E' as (b2 & Q2 & E').
    apply bind_ok in E as (a3 & P3 & E). apply bind_ok in E' as (b3 & Q3 & E').
    apply bind_ok in E as (a4 & P4 & E). apply bind_ok in E' as (b4 & Q4 & E').
    apply bind_ok in E as (a5 & P5 & E). apply bind_ok in E' as (b5 & Q5 & E').
    apply bind_ok in E as (a6 & P6 & E). apply bind_ok in E' as (b6 & Q6 & E').
    apply bind_ok in E as (a7 & P7 & E). apply bind_ok in E' as (b7 & Q7 & E').
    apply index_array_ok in P1 as (-> & _). apply index_array_ok in Q1 as (-> & _).
    apply index_array_ok in P2 as (-> & _). apply index_array_ok in Q2 as (-> & _).
    apply index_array_ok in P3 as (-> & _). apply index_array_ok in Q3 as (-> & _).
    apply index_array_ok in P4 as (-> & _). apply index_array_ok in Q4 as (-> & _).
    apply index_array_ok in P5 as (-> & _). apply index_array_ok in Q5 as (-> & _).
    apply index_array_ok in P6 as (-> & _). apply index_array_ok in Q6 as (-> & _).
    apply index_array_ok in P7 as (-> & _). apply index_array_ok in Q7 as (-> & _).
    rewrite (take_same _ l l') in E by (intros j Hj; destruct (A j Hj) as (_ & _ & _ & _ & _ & _ & _ & X); apply nth_of_error, X).
    rewrite (take_same _ (src_sal src) (src_sal src')) in E by (intros j Hj; apply (A j Hj)).
    rewrite (take_same _ (src_ptmp src) (src_ptmp src')) in E by (intros j Hj; apply (A j Hj)).
    rewrite (take_same _ (src_pres src) (src_pres src')) in E by (intros j Hj; apply (A j Hj)).
    rewrite (take_same _ (m_cols (la_ptmp d)) (m_cols (la_ptmp d'))) in E by (intros j Hj; apply (A j Hj)).
    rewrite (take_same _ (m_cols (la_mapped_sal d)) (m_cols (la_mapped_sal d'))) in E by (intros j Hj; apply (A j Hj)).
    rewrite (take_same _ (m_cols (la_map_sal_errors d)) (m_cols (la_map_sal_errors d'))) in E by (intros j Hj; apply (A j Hj)).
    rewrite HL in E.
    destruct (window_bound (cf_theta_lt c)); [|discriminate]. destruct (window_bound (cf_theta_gt c)); [|discriminate].
    destruct (window_bound (cf_pres_lt c)); [|discriminate]. destruct (window_bound (cf_pres_gt c)); [|discriminate]. cbn [bind] in E, E'.
    destruct (find_10thetas _ _ _ _ _ _ _ _ _ _ _ _) as [[th ms]|]; [|discriminate]. cbn [bind] in E, E'.
    apply bind_ok in E as (n & P & E). apply bind_ok in E' as (n' & P' & E').
    apply index_array_ok in P as (-> & _). apply index_array_ok in P' as (-> & _).
    rewrite (take_same _ (src_no src) (src_no src')) in E by (intros j Hj; apply (A j Hj)).
    congruence.
  Qed.

  Theorem independent cfg src src' pos pos' d d' c flags v g g1 r r' g' g1' l l' :
    rectangular src -> rectangular src' -> src_levels src = src_levels src' ->
    cf_breaks c = [] -> accepted c -> cf_calseries c = map Fin flags -> v <> 0 ->
    float_coords interp2d tbase pos = Ok l -> float_coords interp2d tbase pos' = Ok l' ->
    (forall j, nth_error flags j = Some v -> same_profile src src' d d' l l' j) ->
    whole cfg src pos d (Ok c) g = (Ok r, g') -> whole cfg src' pos' d' (Ok c) g1 = (Ok r', g1') ->
    forall j, nth_error flags j = Some v -> same_calibration (src_levels src) r r' j.
  Proof.
    intros R R' HL HB A HF NZ EL EL' S E E' j Hj.
    assert (LS : lists_series flags v (calindex_of (map Fin flags) (Fin v))).
    { split; [apply argwhere_sorted|]. intros i. rewrite calindex_spec. apply flagged_fin. }
    set (idx := calindex_of (map Fin flags) (Fin v)) in *.
    pose proof (proj2 (proj2 LS j) Hj) as Ij. apply (In_nth _ _ 0%nat) in Ij as (p & Hp & Ep).
    pose proof (saved_fin det solve inv least_squares rng randn interp1d interp2d tbase c_from_sp sp_from_c _ _ _ _ _ _ _ _ p _ _ _ HB A HF NZ LS Hp E) as (Hv & la & per & m & f & EA & EP & EM & FO & _ & RV).
    pose proof (saved_fin det solve inv least_squares rng randn interp1d interp2d tbase c_from_sp sp_from_c _ _ _ _ _ _ _ _ p _ _ _ HB A HF NZ LS Hp E') as (_ & lb & per' & m' & f' & EA' & EP' & EM' & FO' & _ & RV').
    assert (la = l) as -> by congruence. assert (lb = l') as -> by congruence. assert (per' = per) as -> by congruence.
    destruct (In_nth_error _ _ Hv) as (k & Hk). assert (m' = m) as -> by (specialize (EM k Hk); specialize (EM' k Hk); congruence).
    destruct FO as (sd & fi & h1 & h2 & ES & EB & EF). destruct FO' as (sd' & fi' & h1' & h2' & ES' & EB' & EF').
    assert (sd' = sd) as ->. { symmetry. refine (select_same _ _ _ _ _ _ _ _ _ _ _ HL _ ES ES'). intros i Hi. apply S. apply LS, Hi. }
    assert (fi' = fi) as -> by congruence.
    pose proof (fit_rng _ _ _ _ _ _ _ _ _ _ _ _ _ _ _ _ _ EF EF') as AP. injection AP as _ P2 P3 P4 P5 P6 _ _ _.
    unfold rows_of, fit_values in RV, RV'. cbn [map] in RV, RV'. rewrite Ep in RV, RV'. injection RV as V1 _ V3 V4 V5 V6. injection RV' as W1 _ W3 W4 W5 W6.
    assert (F1 : entry1 (k_factor r) j = entry1 (k_factor r') j) by congruence.
    assert (F5 : entry1 (k_sta_mean r) j = entry1 (k_sta_mean r') j) by congruence.
    assert (F6 : entry1 (k_sta_rms r) j = entry1 (k_sta_rms r') j) by congruence.
    split; [exact F1|]. split; [congruence|]. split; [congruence|]. split; [exact F5|]. split; [exact F6|].
    assert (IS : in_series flags j) by (exists v; auto).
    intros lv Hlv.
    pose proof (profiles_fin det solve inv least_squares rng randn interp1d interp2d tbase c_from_sp sp_from_c _ _ _ _ _ _ _ _ _ R HB HF E) as (_ & PF).
    pose proof (profiles_fin det solve inv least_squares rng randn interp1d interp2d tbase c_from_sp sp_from_c _ _ _ _ _ _ _ _ _ R' HB HF E') as (_ & PF').
    assert (B : forall s co dd sdx, select_series interp1d s co dd c per idx = Ok sdx -> (j < length (src_no s))%nat).
    { intros s co dd sdx Q. unfold select_series in Q. do 12 (apply bind_ok in Q as (? & _ & Q)). apply bind_ok in Q as ((th & ms) & _ & Q).
      apply bind_ok in Q as (no & Eno & _). apply index_array_ok in Eno as (_ & BB). apply BB. apply LS, Hj. }
    destruct (proj1 (PF j (B _ _ _ _ ES)) A IS lv Hlv) as (C1 & _ & C3 & _ & C5 & C6).
    rewrite HL in Hlv. destruct (proj1 (PF' j (B _ _ _ _ ES')) A IS lv Hlv) as (D1 & _ & D3 & _ & D5 & D6).
    destruct (S j Hj) as (Y1 & Y2 & _). unfold entry2 in C1, C3, C5, C6 |- *. unfold entry2 in D1, D3, D5, D6.
    cbv zeta in *. rewrite C1, C3, C5, C6, D1, D3, D5, D6, Y1, Y2, F1, F5, F6. split; [reflexivity|]. split; [reflexivity|]. split; reflexivity.
  Qed.
End Calib.
