(* C119-C121: the floats do not influence each other; a first run and a second run of the script *)
From Coq Require Import String Ascii.
From Coq Require Import ZArith List Bool Lia Reals Lra Permutation Sorted.
From Verif Require Import Num Np Utilities Finders Stats FitCond Topo Helper MapProfile Mapping Config Calib Pyplot Plots Dashboard Pipeline
  Spec_FitCond Spec_Mapping Spec_Config Spec_Calib Spec_Pipeline Spec_Pipeline2 Proofs_Mapping3 Proofs_Mapping4 Proofs_Calseries Proofs_Calib Proofs_Calib8
  Proofs_Pipeline Proofs_Pipeline2 Proofs_Pipeline4.
Import ListNotations.
Local Open Scope nat_scope.

Section Any.
  Context {T : Type} {NT : Num T}.
  Variable cwd : list string.
  Variable cp : cal_paths.
  Variable float_dir : string.
  Variable map_cfg : map_config T.
  Variable calc : string -> source T -> nat -> res (nat -> res (option (level_out T))).
  Variable argsort : list T -> list nat.
  Notation alone := (alone cwd cp float_dir map_cfg calc argsort).
  Notation settings_of := (settings_of cwd cp float_dir argsort).
  (* only the float's own files matter *)
  Lemma alone_agree w w' n : w (at_source cwd cp float_dir n) = w' (at_source cwd cp float_dir n) ->
    w (at_load cwd cp float_dir n) = w' (at_load cwd cp float_dir n) -> w (at_save cwd cp n) = w' (at_save cwd cp n) -> alone w n = alone w' n.
  Proof.
    intros A B C. unfold Spec_Pipeline.alone. rewrite <- A. destruct (as_source (w _)) as [[src pos]|].
    - unfold update_salinity_mapping, update. change (load_path cwd (mapping_paths cp) float_dir n) with (at_load cwd cp float_dir n).
      assert (EL : mapped_files w (at_load cwd cp float_dir n) = mapped_files w' (at_load cwd cp float_dir n)) by (unfold mapped_files; now rewrite B).
      assert (EV : mapped_files w (at_save cwd cp n) = mapped_files w' (at_save cwd cp n)) by (unfold mapped_files; now rewrite C).
      rewrite <- EL. destruct (Mapping.run _ _ _ _ _ _).
      + change (save_path cwd (mapping_paths cp) n) with (at_save cwd cp n). now rewrite path_eqb_refl.
      + now rewrite EV.
    - unfold mapped_files. now rewrite C.
  Qed.
  Lemma settings_agree w w' n : w (at_source cwd cp float_dir n) = w' (at_source cwd cp float_dir n) ->
    w (at_set cwd cp float_dir n) = w' (at_set cwd cp float_dir n) -> settings_of w n = settings_of w' n.
  Proof. intros A B. unfold Spec_Pipeline.settings_of. now rewrite <- A, <- B. Qed.

  Lemma products_agree {rng} fit w1 w1' w2 w2' n : products cwd cp float_dir map_cfg calc argsort (rng := rng) fit w1 w1' n ->
    products cwd cp float_dir map_cfg calc argsort fit w2 w2' n ->
    (forall p, In p (own_files cwd cp float_dir n) -> w1 p = w2 p) ->
    w1' (at_save cwd cp n) = w2' (at_save cwd cp n) /\ w1' (at_set cwd cp float_dir n) = w2' (at_set cwd cp float_dir n) /\
    exists src pos d c g1 g2 h1 h2 k1 k2, w1 (at_source cwd cp float_dir n) = Some (CSource src pos) /\ alone w1 n = (Ok tt, Some d) /\
      settings_of w1 n = Ok c /\ fit src pos d (Ok c) g1 = (Ok k1, h1) /\ fit src pos d (Ok c) g2 = (Ok k2, h2) /\
      w1' (at_calib cwd cp float_dir n) = Some (CCalib k1) /\ w2' (at_calib cwd cp float_dir n) = Some (CCalib k2).
  Proof.
    intros (src & pos & d & c & k & g & g' & A1 & A2 & A3 & A4 & A5 & A6 & A7) (src2 & pos2 & d2 & c2 & k2 & g2 & g2' & B1 & B2 & B3 & B4 & B5 & B6 & B7) OW.
    assert (E1 := OW _ (or_introl eq_refl)). assert (E2 := OW _ (or_intror (or_introl eq_refl))).
    assert (E3 := OW _ (or_intror (or_intror (or_introl eq_refl)))). assert (E4 := OW _ (or_intror (or_intror (or_intror (or_introl eq_refl))))).
    rewrite <- (alone_agree w1 w2 n E1 E2 E3) in B2. rewrite <- (settings_agree w1 w2 n E1 E4) in B3. rewrite <- E1 in B1.
    assert (src2 = src /\ pos2 = pos) as [-> ->] by (split; congruence). assert (d2 = d) as -> by congruence. assert (c2 = c) as -> by congruence.
    split; [congruence|]. split; [congruence|]. exists src, pos, d, c, g, g2, g', g2', k, k2. repeat (split; [assumption|]). assumption.
  Qed.
End Any.

Section Reals.
  Notation mat := (nat -> nat -> XR).
  Variable det : nat -> mat -> XR.
  Variable solve : nat -> nat -> mat -> mat -> res mat.
  Variable inv : nat -> mat -> res mat.
  Variable least_squares : (list XR -> res (list XR)) -> list XR -> res (list (list XR) * list XR).
  Variable rng : Type.
  Variable randn : nat -> rng -> list XR * rng.
  Variable interp1d : list XR -> list XR -> XR -> res XR.
  Variable interp2d : list XR -> list XR -> list (list Z) -> XR -> XR -> res XR.
  Variable tbase : binfile.
  Variable c_from_sp : XR -> XR -> XR -> XR.
  Variable sp_from_c : XR -> XR -> XR -> XR.
  Variable cov_cfg : cov_config XR.
  Notation fit := (piecewisefit det solve inv least_squares rng randn interp1d interp2d tbase c_from_sp sp_from_c cov_cfg).
  Notation usable c flags := (cf_breaks c = [] /\ cf_calseries c = map Fin flags /\ right_rows flags (cf_max_breaks c)).

  Lemma coords_exist src pos d c flags g r g' j : usable c flags -> in_series flags j ->
    fit src pos d (Ok c) g = (Ok r, g') -> exists l, float_coords interp2d tbase pos = Ok l.
  Proof.
    intros (U1 & U2 & U3) HJ E. destruct (whole_ok _ _ _ _ _ _ _ _ _ _ _ _ _ _ _ _ _ _ _ E) as (co & cf & per & EC & EP & [(SH & _)|(_ & l & EL & _)] & _).
    - injection EC as <-.
      rewrite (c98_no_history _ _ _ _ _ _ _ _ _ _ _ _ _ _ _ _ flags per g SH EP U1 U2 U3 (ex_intro _ j HJ)) in E. discriminate.
    - exists l. exact EL.
  Qed.
  (* two fits of the same files *)
  Lemma same_fit src pos d c g g1 r r1 g' g1' : rectangular src -> series_file c ->
    fit src pos d (Ok c) g = (Ok r, g') -> fit src pos d (Ok c) g1 = (Ok r1, g1') ->
    same_calibrations src r r1.
  Proof.
    intros RE (flags & U1 & U2 & U3) E1 E2 j Hj. destruct (nth_error flags j) as [v|] eqn:EV.
    - destruct (Req_EM_T v 0) as [->|NZ].
      + right. assert (N : ~ in_series flags j) by (intros (x & Ex & Nx); congruence).
        split; [apply (c70_profiles _ _ _ _ _ _ _ _ _ _ _ _ _ _ _ _ flags _ _ _ RE U1 U2 E1)|apply (c70_profiles _ _ _ _ _ _ _ _ _ _ _ _ _ _ _ _ flags _ _ _ RE U1 U2 E2)]; assumption.
      + left. destruct (coords_exist src pos d c flags g r g' j (conj U1 (conj U2 U3))) as (l & EL); [exists v; auto|exact E1|].
        apply (c70_independent det solve inv least_squares rng randn interp1d interp2d tbase c_from_sp sp_from_c cov_cfg src src pos pos d d c flags v g g1 r r1 g' g1' l l); auto.
        intros i _. unfold same_profile. repeat split.
    - right. assert (N : ~ in_series flags j) by (intros (x & Ex & Nx); congruence).
      split; [apply (c70_profiles _ _ _ _ _ _ _ _ _ _ _ _ _ _ _ _ flags _ _ _ RE U1 U2 E1)|apply (c70_profiles _ _ _ _ _ _ _ _ _ _ _ _ _ _ _ _ flags _ _ _ RE U1 U2 E2)]; assumption.
  Qed.

  (* the settings written when there are none *)
  Lemma default_rows flags : (forall f, In f flags -> f = 0 \/ f = 1)%R -> right_rows flags [[Fin 4]].
  Proof.
    intros F. destruct (in_dec Req_EM_T 1%R flags) as [H|H].
    - exists [1%R]. split; [repeat constructor|]. split; [|right; left; reflexivity]. intros v. cbn. split; [intros [<-|[]]; split; [exact H|lra]|].
      intros [Hv NZ]. destruct (F v Hv); [contradiction|auto].
    - exists []. split; [constructor|]. split; [|right; left; reflexivity]. intros v. split; [intros []|]. intros [Hv NZ]. destruct (F v Hv) as [->| ->]; [lra|contradiction].
  Qed.

  Variable cwd : list string.
  Variable cp : cal_paths.
  Variable float_dir : string.
  Hypothesis same_postfix : cp_mapped_postfix cp = cp_calib_postfix cp.
  Hypothesis no_dir : no_directory float_dir.
  Variable argsort : list XR -> list nat.
  Hypothesis HS : sorting argsort.
  Notation at_source := (at_source cwd cp float_dir).
  Notation at_load := (at_load cwd cp float_dir).
  Notation at_save := (at_save cwd cp).
  Notation at_set := (at_set cwd cp float_dir).
  Notation at_calib := (at_calib cwd cp float_dir).
  Notation settings_of := (settings_of cwd cp float_dir argsort).

  Lemma increasing_nodup (rs : list R) : increasing rs -> NoDup rs.
  Proof.
    intros A. apply (NoDup_nth rs 0%R). intros i j Hi Hj E. destruct (Nat.lt_trichotomy i j) as [L|[L|L]]; [|exact L|].
    - specialize (A i j (conj L Hj)). lra.
    - specialize (A j i (conj L Hi)). lra.
  Qed.

  Section Fresh.
    Variable map_cfg : map_config XR.
    Variable calc : string -> source XR -> nat -> res (nat -> res (option (level_out XR))).
    Notation alone := (alone cwd cp float_dir map_cfg calc argsort).
    Lemma alone_fresh w n src pos d : w (at_source n) = Some (CSource src pos) -> as_mapped (w (at_load n)) = None -> alone w n = (Ok tt, Some d) ->
      Mapping.run (map_values map_cfg) (src_levels src) (calc n src) argsort None (src_no src) = Ok d.
    Proof.
      intros ES EL E. unfold Spec_Pipeline.alone in E. rewrite ES in E. cbn [as_source] in E. unfold update_salinity_mapping, update in E.
      unfold mapped_files at 1 in E. change (load_path cwd (mapping_paths cp) float_dir n) with (at_load n) in E. rewrite EL in E.
      destruct (Mapping.run _ _ _ _ None _) as [d'|e]; [|discriminate]. change (save_path cwd (mapping_paths cp) n) with (at_save n) in E.
      rewrite path_eqb_refl in E. congruence.
    Qed.

    Lemma fresh_products w w' n src rs : products cwd cp float_dir map_cfg calc argsort fit w w' n ->
      new_float cwd cp float_dir w n src rs -> done_float cwd cp float_dir calc c_from_sp sp_from_c w' n src rs.
    Proof.
      intros (src0 & pos0 & d & c & k & g & g' & A1 & A2 & A3 & A4 & A5 & A6 & A7) ((pos & ES) & HN & AS & RE & LT & NM & NSr).
      assert (src0 = src /\ pos0 = pos) as [-> ->] by (split; congruence). clear A1.
      assert (ND := increasing_nodup rs AS).
      assert (RUN := alone_fresh w n src pos d ES NM A2). rewrite HN in RUN.
      exists d, c, k. repeat (split; [assumption|]).
      (* the mapped file *)
      destruct (fresh_labels argsort HS (map_values map_cfg) (src_levels src) (calc n src) eq_refl rs ND d RUN) as (L1 & L2 & L3 & L4).
      assert (ES2 : sorted_list argsort rs = rs).
      { exact (increasing_perm _ _ L3 AS L2). }
      rewrite ES2 in L1. split; [exact L1|].
      (* the settings *)
      unfold Spec_Pipeline.settings_of in A3. rewrite ES in A3. cbn [as_source] in A3. rewrite NSr in A3.
      assert (CO : complete (cal_source_of src)).
      { destruct (RE (src_sal src) (or_introl eq_refl)) as [Q1 _]. destruct (RE (src_pres src) (or_intror (or_intror (or_introl eq_refl)))) as [Q2 _].
        repeat split; cbn; rewrite ?HN, ?map_length in *; assumption. }
      destruct (fresh_correct argsort HS rs ND (cal_source_of src) HN CO AS) as (es & F1 & F2 & F3). rewrite F1 in A3. injection A3 as <-.
      split; [cbn [file_of cf_no]; rewrite <- F2, map_map; reflexivity|].
      (* the calibration *)
      set (flags := map snd es).
      assert (U2 : cf_calseries (file_of es default_settings) = map Fin flags) by (unfold flags; rewrite map_map; reflexivity).
      assert (LE : length es = length rs) by (rewrite <- F2; symmetry; apply map_length).
      assert (NF : forall j, j < length rs -> nth_error flags j = Some (snd (nth j es (0, 0)%R))).
      { intros j Hj. unfold flags. rewrite nth_error_map, (nth_error_nth' es (0, 0)%R) by lia. reflexivity. }
      assert (U3 : right_rows flags (cf_max_breaks (file_of es default_settings))).
      { apply default_rows. intros f Hf. apply In_nth_error in Hf as (j & Hj). assert (Lj : j < length rs).
        { rewrite <- LE. unfold flags in Hj. rewrite <- (map_length snd es). apply nth_error_Some. congruence. }
        rewrite NF in Hj by exact Lj. injection Hj as <-. destruct (F3 j Lj) as [P1 P2].
        destruct (Classical_Prop.classic (has_data (cal_source_of src) j)) as [D|D]; [right; auto|left; auto]. }
      destruct (c70_profiles _ _ _ _ _ _ _ _ _ _ _ _ _ _ _ _ flags _ _ _ RE (eq_refl : cf_breaks (file_of es default_settings) = []) U2 A4) as (SH & PR).
      split; [destruct SH as (_ & _ & SH); now rewrite SH|]. split; [exact L4|]. split; [exact SH|]. split.
      - intros m f j Hm Hj. apply (ascending_labelled argsort HS (map_values map_cfg) eq_refl (src_levels src) (calc n src) rs ND d RUN m f Hm AS j j Hj Hj).
        rewrite L1. rewrite (nth_indep _ NaN (Fin 0)) by (rewrite map_length; exact Hj). apply map_nth.
      - intros j Hj. destruct (F3 j Hj) as [P1 P2]. destruct (PR j) as [Q1 Q2]; [rewrite HN, map_length; exact Hj|].
        assert (EN : entry1 (cf_calseries (file_of es default_settings)) j = Fin (snd (nth j es (0, 0)%R))).
        { unfold entry1. rewrite U2. erewrite nth_error_nth; [reflexivity|]. rewrite nth_error_map, (NF j Hj). reflexivity. }
        rewrite EN. split; intros D.
        + rewrite (P1 D). split; [reflexivity|]. apply Q1; [exact U3|]. exists 1%R. rewrite (NF j Hj), (P1 D). split; [reflexivity|lra].
        + rewrite (P2 D). split; [reflexivity|]. apply Q2. intros (v & Ev & NZ). rewrite (NF j Hj), (P2 D) in Ev. congruence.
    Qed.

    Lemma alone_again cfg' calc' w w1 n src rs d : new_float cwd cp float_dir w n src rs -> alone w n = (Ok tt, Some d) ->
      w1 (at_source n) = w (at_source n) -> w1 (at_save n) = Some (CMapped d) ->
      Spec_Pipeline.alone cwd cp float_dir cfg' calc' argsort w1 n = (Ok tt, Some d).
    Proof.
      intros ((pos & ES) & HN & AS & RE & LT & NM & NSr) A EW EM. assert (RUN := alone_fresh w n src pos d ES NM A). rewrite HN in RUN.
      unfold Spec_Pipeline.alone. rewrite EW, ES. cbn [as_source]. unfold update_salinity_mapping, update.
      change (load_path cwd (mapping_paths cp) float_dir n) with (at_load n). rewrite (load_save cwd cp float_dir no_dir n).
      unfold mapped_files at 1. rewrite EM. cbn [as_mapped]. rewrite HN.
      rewrite (second_run argsort HS (map_values map_cfg) (src_levels src) (calc n src) eq_refl rs (increasing_nodup rs AS) d (map_values cfg') (calc' n src) RUN).
      change (save_path cwd (mapping_paths cp) n) with (at_save n). now rewrite path_eqb_refl.
    Qed.
    Lemma settings_again w w1 n src rs c : new_float cwd cp float_dir w n src rs -> settings_of w n = Ok c ->
      w1 (at_source n) = w (at_source n) -> w1 (at_set n) = Some (CSeries c) -> settings_of w1 n = Ok c /\ series_file c.
    Proof.
      intros ((pos & ES) & HN & AS & RE & LT & NM & NSr) A EW EM. unfold Spec_Pipeline.settings_of in *. rewrite EW, EM, ES in *. cbn [as_source as_series] in *.
      rewrite NSr in A.
      assert (CO : complete (cal_source_of src)).
      { destruct (RE (src_sal src) (or_introl eq_refl)) as [Q1 _]. destruct (RE (src_pres src) (or_intror (or_intror (or_introl eq_refl)))) as [Q2 _].
        repeat split; cbn; rewrite ?HN, ?map_length in *; assumption. }
      split; [exact (fresh_twice argsort HS rs (increasing_nodup rs AS) (cal_source_of src) HN CO c A)|].
      destruct (fresh_correct argsort HS rs (increasing_nodup rs AS) (cal_source_of src) HN CO AS) as (es & F1 & F2 & F3). rewrite F1 in A. injection A as <-.
      exists (map snd es). split; [reflexivity|]. split; [cbn; rewrite map_map; reflexivity|].
      apply default_rows. intros f Hf. apply in_map_iff in Hf as (e & <- & He). apply (In_nth _ _ (0, 0)%R) in He as (j & Hj & <-).
      assert (Lj : j < length rs) by (rewrite <- F2, map_length; exact Hj). destruct (F3 j Lj) as [P1 P2].
      destruct (Classical_Prop.classic (has_data (cal_source_of src) j)) as [D|D]; [right; auto|left; auto].
    Qed.
  End Fresh.
End Reals.
