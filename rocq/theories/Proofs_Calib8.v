(* The theorems about calibration files, with the flags as numbers *)
From Coq Require Import String Ascii.
From Coq Require Import ZArith List Bool Lia Reals Lra Sorted.
From Verif Require Import Num Np NumFacts NpFacts Utilities Finders Stats FitCond Topo Helper MapProfile Mapping Config Calib Spec_FitCond
  Spec_Calib Proofs_Calib Proofs_Calib2 Proofs_Calib3 Proofs_Calib4 Proofs_Calib5 Proofs_Calib6.
Import ListNotations.
Local Open Scope R_scope.

Section Calib.
  Notation mat := (nat -> nat -> XR).
  Variable det : nat -> mat -> XR.
  Variable solve : nat -> nat -> mat -> mat -> res mat.
  Variable inv : nat -> mat -> res mat.
  Variable least_squares : (list XR -> res (list XR)) -> list XR -> res (list (list XR) * list XR).
  Variable rng : Type.
  Variable randn : nat -> rng -> list XR * rng.
  Variable interp1d : list XR -> list XR -> XR -> res XR.
  Variable interp2d : list XR -> list XR -> list (list Z) -> XR -> XR -> res XR.
  Variable tbase : binfile.
  Variable c_from_sp : XR -> XR -> XR -> XR.
  Variable sp_from_c : XR -> XR -> XR -> XR.
  Notation whole := (piecewisefit det solve inv least_squares rng randn interp1d interp2d tbase c_from_sp sp_from_c).
  Notation fit_of := (fit_of det solve inv least_squares rng randn interp1d c_from_sp).

  Theorem c70_profiles cfg src pos d c flags g r g' : rectangular src -> cf_breaks c = [] -> cf_calseries c = map Fin flags ->
    whole cfg src pos d (Ok c) g = (Ok r, g') ->
    shaped src r /\ forall j, (j < length (src_no src))%nat ->
      (right_rows flags (cf_max_breaks c) -> in_series flags j -> calibrated c_from_sp sp_from_c src r j) /\ (~ in_series flags j -> missing r j).
  Proof.
    intros R HB HF E. apply (profiles_fin _ _ _ _ _ _ _ _ _ _ _ _ _ _ _ _ flags) in E as (S & P); auto. split; [exact S|]. intros j Hj. destruct (P j Hj) as (P1 & P2).
    split; [|exact P2]. intros A. apply P1. now apply (right_accepted c flags).
  Qed.
  Theorem c70_independent cfg src src' pos pos' d d' c flags v g g1 r r' g' g1' l l' :
    rectangular src -> rectangular src' -> src_levels src = src_levels src' ->
    cf_breaks c = [] -> cf_calseries c = map Fin flags -> right_rows flags (cf_max_breaks c) -> v <> 0 ->
    float_coords interp2d tbase pos = Ok l -> float_coords interp2d tbase pos' = Ok l' ->
    (forall j, nth_error flags j = Some v -> same_profile src src' d d' l l' j) ->
    whole cfg src pos d (Ok c) g = (Ok r, g') -> whole cfg src' pos' d' (Ok c) g1 = (Ok r', g1') ->
    forall j, nth_error flags j = Some v -> same_calibration (src_levels src) r r' j.
  Proof.
    intros R R' HL HB HF A. apply (right_accepted c flags HF) in A.
    exact (independent det solve inv least_squares rng randn interp1d interp2d tbase c_from_sp sp_from_c cfg src src' pos pos' d d' c flags v g g1 r r' g' g1' l l' R R' HL HB A HF).
  Qed.
  Theorem c94_pth_smallest cfg src pos d c flags nos v idx us g r g' :
    cf_breaks c = [] -> cf_calseries c = map Fin flags -> right_rows flags (cf_max_breaks c) -> src_no src = map Fin nos -> v <> 0 ->
    lists_series flags v idx -> idx <> [] -> NoDup (numbers_of nos idx) -> distinct_of (numbers_of nos idx) us ->
    whole cfg src pos d (Ok c) g = (Ok r, g') ->
    exists l per m f, float_coords interp2d tbase pos = Ok l /\ fit_of cfg src (Some l) d c per m idx f /\ f_xfit f = map Fin us /\
      forall p, (p < length idx)%nat -> value_at f (Fin (nth p us 0)) (entry1 (k_factor r) (nth p idx 0%nat)).
  Proof. intros HB HF A. apply (right_accepted c flags HF) in A. apply pth_smallest; assumption. Qed.
  Theorem c94_own_number cfg src pos d c flags nos v idx g r g' :
    cf_breaks c = [] -> cf_calseries c = map Fin flags -> right_rows flags (cf_max_breaks c) -> src_no src = map Fin nos -> v <> 0 ->
    lists_series flags v idx -> idx <> [] -> StronglySorted Rlt (numbers_of nos idx) ->
    whole cfg src pos d (Ok c) g = (Ok r, g') ->
    exists l per m f, float_coords interp2d tbase pos = Ok l /\ fit_of cfg src (Some l) d c per m idx f /\
      forall j, In j idx -> value_at f (Fin (nth j nos 0)) (entry1 (k_factor r) j).
  Proof. intros HB HF A. apply (right_accepted c flags HF) in A. apply own_number; assumption. Qed.
  Theorem c94_foreign_number cfg src pos d c flags nos v idx g r g' :
    cf_breaks c = [] -> cf_calseries c = map Fin flags -> right_rows flags (cf_max_breaks c) -> src_no src = map Fin nos -> v <> 0 ->
    lists_series flags v idx -> NoDup (numbers_of nos idx) -> ~ StronglySorted Rlt (numbers_of nos idx) ->
    whole cfg src pos d (Ok c) g = (Ok r, g') ->
    exists l per m f, float_coords interp2d tbase pos = Ok l /\ fit_of cfg src (Some l) d c per m idx f /\
      exists j k, In j idx /\ In k idx /\ nth j nos 0 <> nth k nos 0 /\ value_at f (Fin (nth k nos 0)) (entry1 (k_factor r) j).
  Proof. intros HB HF A. apply (right_accepted c flags HF) in A. apply foreign_number; assumption. Qed.
  Theorem c95_repeated_number cfg src pos d c flags nos v idx g r g' a b :
    cf_breaks c = [] -> cf_calseries c = map Fin flags -> right_rows flags (cf_max_breaks c) -> src_no src = map Fin nos -> v <> 0 ->
    lists_series flags v idx -> ~ NoDup (numbers_of nos idx) -> In a idx -> In b idx -> nth a nos 0 <> nth b nos 0 ->
    whole cfg src pos d (Ok c) g <> (Ok r, g').
  Proof. intros HB HF A. apply (right_accepted c flags HF) in A. apply repeated_number; assumption. Qed.
  Theorem c95_single cfg src pos d c flags v k g r g' : c_from_sp NaN NaN (Fin 0) = NaN ->
    cf_breaks c = [] -> cf_calseries c = map Fin flags -> right_rows flags (cf_max_breaks c) -> v <> 0 -> lists_series flags v [k] ->
    whole cfg src pos d (Ok c) g <> (Ok r, g').
  Proof. intros HC HB HF A NZ LS. apply (right_accepted c flags HF) in A. apply (single_fin _ _ _ _ _ _ _ _ _ _ _ _ _ _ _ _ flags v k); assumption. Qed.

  Lemma some_series flags : (exists j, in_series flags j) <-> series_flags (map Fin flags) <> [].
  Proof.
    split.
    - intros (j & v & E & NZ) C. assert (I : In (Fin v) (series_flags (map Fin flags))).
      { apply flags_in. exists v. split; [reflexivity|]. split; [apply (nth_error_In _ _ E)|exact NZ]. }
      rewrite C in I. destruct I.
    - intros NE. destruct (series_flags (map Fin flags)) as [|u us] eqn:ES; [congruence|].
      assert (I : In u (series_flags (map Fin flags))) by (rewrite ES; left; reflexivity).
      apply flags_in in I as (v & _ & I & NZ). apply In_nth_error in I as (j & Hj). exists j, v. auto.
  Qed.
  Theorem c98_no_history cfg src pos d c flags per g : selected_hist d = [] -> cf_percent c = Some [[per]] -> cf_breaks c = [] ->
    cf_calseries c = map Fin flags -> right_rows flags (cf_max_breaks c) -> (exists j, in_series flags j) ->
    whole cfg src pos d (Ok c) g = (Raise UnboundLocalError, g).
  Proof.
    intros HH HP HB HF A I. apply (right_accepted c flags HF) in A. apply no_history with (per := per); auto. rewrite HF. apply some_series, I.
  Qed.
  Theorem c98_blank cfg src pos d c flags per g : (selected_hist d = [] \/ exists l, float_coords interp2d tbase pos = Ok l) -> cf_percent c = Some [[per]] -> cf_breaks c = [] ->
    cf_calseries c = map Fin flags -> (forall j, ~ in_series flags j) \/ ~ right_rows flags (cf_max_breaks c) ->
    exists r, whole cfg src pos d (Ok c) g = (Ok r, g) /\ (forall j, missing r j) /\ k_no r = src_no src /\ k_coef r = [] /\ k_breaks r = [].
  Proof.
    intros HH HP HB HF X. exists (blank_calib src). split; [|split; [intros j; apply blank_missing|repeat split]].
    destruct X as [N|N].
    - apply no_series with (per := per); auto. rewrite HF. destruct (series_flags (map Fin flags)) eqn:ES; [reflexivity|].
      exfalso. assert (NE : series_flags (map Fin flags) <> []) by (rewrite ES; discriminate). apply some_series in NE as (j & Hj). exact (N j Hj).
    - apply wrong_rows with (per := per); auto. intros A. apply N. now apply (right_accepted c flags HF).
  Qed.
  Theorem c96_breaks cfg src pos d c flags j0 g r g' : c_from_sp NaN NaN (Fin 0) = NaN ->
    cf_breaks c <> [] -> cf_calseries c = map Fin flags -> in_series flags j0 ->
    whole cfg src pos d (Ok c) g = (Ok r, g') -> g' = g /\ k_coef r = [] /\ forall j, missing r j.
  Proof.
    intros HC HB HF I E. destruct (breaks_fin _ _ _ _ _ _ _ _ _ _ _ _ _ _ _ _ flags j0 _ _ _ HC HB HF I E) as (-> & ->).
    split; [reflexivity|]. split; [reflexivity|]. intros j. apply blank_missing.
  Qed.
  (* the number of series is that of the different nonzero flags *)
  Theorem c99_no_break_saved cfg src pos d c flags us g r g' : cf_breaks c = [] -> cf_calseries c = map Fin flags ->
    NoDup us -> (forall v, In v us <-> In v flags /\ v <> 0) ->
    whole cfg src pos d (Ok c) g = (Ok r, g') -> k_breaks r = [] /\ (length (k_coef r) <= 2 * length us)%nat.
  Proof.
    intros HB HF ND D E. apply no_break_saved in E as (E1 & E2); [|exact HB]. split; [exact E1|]. rewrite HF in E2.
    destruct (flags_fin flags) as (ws & S & D' & EW). rewrite EW, map_length in E2.
    assert (L : (length ws <= length us)%nat) by (apply NoDup_incl_length; [apply sorted_NoDup, S|intros x Hx; apply D, D', Hx]). lia.
  Qed.
End Calib.
