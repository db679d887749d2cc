(* the files handed from stage to stage *)
From Coq Require Import String List Lia.
From Verif Require Import Num Np MapProfile Mapping Spec_Mapping Proofs_Mapping4 Config Calib Pyplot Plots Spec_Plots Proofs_Plots5 Dashboard.
Import ListNotations.
Local Open Scope string_scope.

Definition map_paths_of (p : cal_paths) : map_paths := mkMapPaths (cp_mapped_dir p) (cp_mapped_prefix p) (cp_mapped_postfix p).
Lemma mapped_load cwd p dir name : abspath cwd (mapped_path p dir name) = load_path cwd (map_paths_of p) dir name.
Proof. reflexivity. Qed.
Lemma mapped_dash cwd p name : abspath cwd (dash_grid_path p name) = save_path cwd (map_paths_of p) name.
Proof. reflexivity. Qed.
(* two names in one directory *)
Lemma same_name cwd d dir a b : plain_name a -> plain_name b ->
  abspath cwd (path_join [d; dir; a]) = abspath cwd (path_join [d; dir; b]) <-> a = b.
Proof.
  intros (S1 & A1 & B1 & C1) (S2 & A2 & B2 & C2). split; [|intros ->; reflexivity]. cbn [path_join].
  destruct (abspath_split cwd d "") as [st E]. rewrite !E, !split_app, !fold_left_app, S1, S2. cbn [fold_left].
  rewrite !norm_plain by assumption. intros H. apply app_inv_head in H. now injection H.
Qed.
Lemma same_postfix cwd d dir pre name a b : plain_name (pre ++ name ++ a) -> plain_name (pre ++ name ++ b) ->
  abspath cwd (path_join [d; dir; pre ++ name ++ a]) = abspath cwd (path_join [d; dir; pre ++ name ++ b]) <-> a = b.
Proof.
  intros Ha Hb. rewrite same_name by assumption. split; [|intros ->; reflexivity]. intros H. now apply append_inv_l, append_inv_l in H.
Qed.
Lemma series_calibration cwd p dir name : plain_name (cp_calseries_prefix p ++ name ++ cp_calib_postfix p) -> plain_name (cp_calseries_prefix p ++ name ++ cp_mapped_postfix p) ->
  abspath cwd (set_calseries_path p dir name) = abspath cwd (calseries_path p dir name) <-> cp_calib_postfix p = cp_mapped_postfix p.
Proof. apply same_postfix. Qed.
Lemma series_dashboard cwd p dir name : plain_name (cp_calseries_prefix p ++ name ++ cp_calib_postfix p) -> plain_name (cp_calseries_prefix p ++ name ++ cp_source_postfix p) ->
  abspath cwd (set_calseries_path p dir name) = abspath cwd (dash_series_path p dir name) <-> cp_calib_postfix p = cp_source_postfix p.
Proof. apply same_postfix. Qed.
Lemma calib_dashboard cwd p dir name : plain_name (cp_calib_prefix p ++ name ++ cp_calib_postfix p) -> plain_name (cp_calib_prefix p ++ name ++ cp_source_postfix p) ->
  abspath cwd (calib_path p dir name) = abspath cwd (dash_cal_path p dir name) <-> cp_calib_postfix p = cp_source_postfix p.
Proof. apply same_postfix. Qed.

Section Runs.
  Context {T : Type} {NT : Num T} {NTT : NumT T}.
  Variable interp1d : list T -> list T -> T -> res T.
  Variable f : list T -> list T -> T -> T.
  Variable argsort : list T -> list nat.
  Variable show_bounds : T * T -> string.
  (* a calibration that was just saved *)
  Lemma dash_cal_differs p dir name : cp_calib_postfix p <> cp_source_postfix p -> dash_cal_path p dir name <> calib_path p dir name.
  Proof.
    intros Hp H. unfold dash_cal_path, calib_path in H. cbn [path_join] in H. repeat apply append_inv_l in H. congruence.
  Qed.
  Lemma dashboard_reads_calibration {rng} fit p dir name (fl fl' : Calib.files T) (g g' : rng) d s c :
    calc_piecewisefit fit p dir name fl g = (Ok tt, fl', g') ->
    fl_mapped fl (dash_grid_path p name) = Some d -> fl_source fl (dash_source_path p dir name) = Some s -> fl_calseries fl (dash_series_path p dir name) = Some c ->
    exists k, fl_calib fl' (calib_path p dir name) = Some k /\
    forall levels pp,
      (cp_calib_postfix p = cp_source_postfix p -> dashboard interp1d f argsort show_bounds fl' p dir name levels pp
        = plot_diagnostics interp1d f argsort show_bounds (fst s) (snd s) d c k levels pp name) /\
      (cp_calib_postfix p <> cp_source_postfix p -> fl_calib fl (dash_cal_path p dir name) = None ->
        dashboard interp1d f argsort show_bounds fl' p dir name levels pp = ([], Some FileNotFoundError)) /\
      (cp_calib_postfix p <> cp_source_postfix p -> forall k', fl_calib fl (dash_cal_path p dir name) = Some k' ->
        dashboard interp1d f argsort show_bounds fl' p dir name levels pp
        = plot_diagnostics interp1d f argsort show_bounds (fst s) (snd s) d c k' levels pp name).
  Proof.
    unfold calc_piecewisefit. intros Hrun Hd Hs Hc.
    destruct (found (fl_source fl (source_path p dir name))) as [s0|e]; cbn [bind] in Hrun; [|discriminate].
    destruct (found (fl_mapped fl (mapped_path p dir name))) as [d0|e]; cbn [bind] in Hrun; [|discriminate].
    destruct (fit (fst s0) (snd s0) d0 _ g) as [[k|e] g1]; [|discriminate]. injection Hrun as Hfl _. subst fl'.
    exists k. cbn [fl_calib]. unfold written. split; [now rewrite String.eqb_refl|]. intros levels pp. unfold dashboard.
    cbn [fl_mapped fl_source fl_calseries fl_calib]. rewrite Hd, Hs, Hc. cbn [found bind]. split; [|split].
    - intros Hp. assert (E : dash_cal_path p dir name = calib_path p dir name) by (unfold dash_cal_path, calib_path; now rewrite Hp).
      rewrite E, String.eqb_refl. reflexivity.
    - intros Hp Hk. pose proof (dash_cal_differs p dir name Hp) as Hne. apply String.eqb_neq in Hne. rewrite Hne, Hk. reflexivity.
    - intros Hp k' Hk. pose proof (dash_cal_differs p dir name Hp) as Hne. apply String.eqb_neq in Hne. rewrite Hne, Hk. reflexivity.
  Qed.
End Runs.
