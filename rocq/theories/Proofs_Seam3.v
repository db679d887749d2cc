(* Mapping one level depends on the longitudes through their differences only *)
From Coq Require Import String Ascii.
From Coq Require Import ZArith List Bool Reals Lra Lia FunctionalExtensionality.
From Verif Require Import Num Np NumFacts Utilities Finders Stats Wrangling Helper MapProfile Spec_Seam.
Import ListNotations.

Section Shift.
  Variable off : R.
  Definition shift (x : XR) : XR := nadd x (Fin off).
  Lemma shift_diff x y : nsub (shift x) (shift y) = nsub x y.
  Proof. destruct x, y; cbn; try reflexivity. f_equal. lra. Qed.
  Lemma shift_nan : shift nnan = nnan.
  Proof. reflexivity. Qed.
  Lemma shift_fin xs : map Fin (map (fun x => x + off)%R xs) = map shift (map Fin xs).
  Proof. rewrite !map_map. apply map_ext. reflexivity. Qed.

  Definition shift_hist (h : hist XR) : hist XR := mkHist (h_sal h) (h_pres h) (map shift (h_long h)) (h_lat h) (h_dates h) (h_z h).
  Definition shift_point (p : point XR) : point XR := mkPoint (p_lat p) (shift (p_long p)) (p_date p) (p_z p).
  Definition shift_obs (o : obs XR) : obs XR := mkObs (o_sal o) (o_lat o) (shift (o_long o)).

  Lemma delete_map {A B} (f : A -> B) ix l : forall i, delete_from i ix (map f l) = map f (delete_from i ix l).
  Proof. induction l as [|a l IH]; intros i; [reflexivity|]. cbn. destruct (existsb _ ix); cbn; now rewrite IH. Qed.
  Lemma take_shift l ix : take nnan (map shift l) ix = map shift (take nnan l ix).
  Proof. unfold take. rewrite map_map. apply map_ext. intros i. rewrite <- shift_nan at 1. apply map_nth. Qed.
  Lemma index_shift l ix : index_array nnan (map shift l) ix = match index_array nnan l ix with Ok r => Ok (map shift r) | Raise e => Raise e end.
  Proof. unfold index_array. rewrite map_length, take_shift. now destruct (forallb _ ix). Qed.

  Lemma hist_shift lo la da z p lev d :
    process_profile_hist_variables (map shift lo) la da z p lev d =
    match process_profile_hist_variables lo la da z p lev d with Ok h => Ok (shift_hist h) | Raise e => Raise e end.
  Proof.
    unfold process_profile_hist_variables. cbv zeta. rewrite index_shift. destruct (index_array nnan lo _) as [hl|]; [|reflexivity]. cbn [bind].
    destruct (index_array nnan la _) as [ha|]; [|reflexivity]. cbn [bind]. destruct (index_array nnan da _) as [hd|]; [|reflexivity]. cbn [bind].
    destruct (index_array nnan z _) as [hz|]; [|reflexivity]. cbn [bind]. unfold shift_hist. cbn. now rewrite take_shift.
  Qed.
  Lemma outlier_shift ix h : remove_statical_outliers ix (shift_hist h) = shift_hist (remove_statical_outliers ix h).
  Proof. unfold remove_statical_outliers. destruct ix as [|i ix]; [reflexivity|]. unfold shift_hist, np_delete. cbn [h_sal h_pres h_long h_lat h_dates h_z]. now rewrite delete_map. Qed.
  Lemma obs_shift h : hist_obs (shift_hist h) = map shift_obs (hist_obs h).
  Proof.
    unfold hist_obs, shift_hist. cbn. rewrite map_map. generalize (combine (h_sal h) (h_lat h)). generalize (h_long h). intros lo. induction lo as [|x lo IH]; intros [|y c]; cbn; try reflexivity.
    now rewrite IH.
  Qed.
  Lemma points_shift h : hist_points (shift_hist h) = map shift_point (hist_points h).
  Proof.
    unfold hist_points, shift_hist. cbn. rewrite map_map. generalize (h_lat h) (h_long h) (h_dates h) (h_z h). intros la. induction la as [|x la IH]; intros [|y lo] [|d da] [|z hz]; cbn; try reflexivity.
    f_equal. apply IH.
  Qed.
  Lemma noise_shift cs : noise_variance (map shift_obs cs) = noise_variance cs.
  Proof.
    unfold noise_variance.
    assert (ED : map (fun a => map (sqdist a) (map shift_obs cs)) (map shift_obs cs) = map (fun a => map (sqdist a) cs) cs).
    { rewrite map_map. apply map_ext. intros a. rewrite map_map. apply map_ext. intros b. unfold sqdist, shift_obs. cbn [o_lat o_long]. now rewrite shift_diff. }
    rewrite ED. cbv zeta. destruct (forallb _ _); [reflexivity|]. destruct (mapM nanargmin _) as [ix|]; [|reflexivity]. cbn [bind].
    do 3 f_equal. f_equal.
    change (mkObs nnan nnan nnan) with (shift_obs (mkObs nnan nnan nnan)) at 1.
    assert (EN : forall k, nth k (map shift_obs cs) (shift_obs (mkObs nnan nnan nnan)) = shift_obs (nth k cs (mkObs nnan nnan nnan))) by (intros k; apply map_nth).
    assert (EM : forall (f g : obs XR * nat -> XR) l, (forall o k, f (shift_obs o, k) = g (o, k)) -> map f (combine (map shift_obs l) ix) = map g (combine l ix)).
    { intros f g l HE. revert ix. induction l as [|o l IH]; intros [|k ix]; cbn; try reflexivity. now rewrite HE, IH. }
    apply EM. intros o k. cbn [fst snd]. rewrite EN. reflexivity.
  Qed.
  Lemma pv_shift l : pv_points (map shift_point l) = pv_points l.
  Proof.
    unfold pv_points, vectorize. destruct l as [|p l]; [reflexivity|]. change (map shift_point (p :: l)) with (shift_point p :: map shift_point l).
    change (mapM (fun q : point XR => potential_vorticity (p_lat q) (p_z q)) (map shift_point (p :: l)) = mapM (fun q => potential_vorticity (p_lat q) (p_z q)) (p :: l)).
    generalize (p :: l). clear. intros l. induction l as [|p l IH]; [reflexivity|]. cbn [map mapM]. now rewrite IH.
  Qed.
  Lemma covar_shift l1 l2 a b c d use : covar_xyt_pv (map shift_point l1) (map shift_point l2) a b c d use = covar_xyt_pv l1 l2 a b c d use.
  Proof.
    assert (EN : forall l i, nth i (map shift_point l) dpoint = shift_point (nth i l dpoint)).
    { intros l i. change (dpoint (T := XR)) with (shift_point dpoint) at 1. apply map_nth. }
    unfold covar_xyt_pv. rewrite !pv_shift. cbv zeta. destruct (Z.eqb use 1).
    - destruct (pv_points l1) as [u|]; [|reflexivity]. cbn [bind]. destruct (pv_points l2) as [v|]; [|reflexivity]. cbn [bind]. f_equal.
      apply functional_extensionality; intros i. apply functional_extensionality; intros j. rewrite !EN. unfold shift_point. cbn [p_lat p_long p_date p_z]. now rewrite shift_diff.
    - f_equal. apply functional_extensionality; intros i. apply functional_extensionality; intros j. rewrite !EN. unfold shift_point. cbn [p_lat p_long p_date p_z]. now rewrite shift_diff.
  Qed.
  Lemma grid_shift inv sal gp dp a b c s n phi use :
    map_data_grid inv sal (map shift_point gp) (map shift_point dp) a b c s n phi use = map_data_grid inv sal gp dp a b c s n phi use.
  Proof. unfold map_data_grid. rewrite !covar_shift, !map_length. reflexivity. Qed.

  Theorem level_shift inv cfg p t h :
    map_level inv cfg (shift_point p) t (shift_hist h) =
    match map_level inv cfg p t h with
    | Ok (Some o) => Ok (Some (mkLevelOut (lo_ptmp o) (lo_sal o) (lo_err o) (lo_noise o) (lo_signal o) (map (fun q => (shift (fst q), snd q)) (lo_points o))))
    | r => r
    end.
  Proof.
    unfold map_level. change (h_sal (shift_hist h)) with (h_sal h). destruct (Nat.ltb 5 _); [|reflexivity]. destruct (outliers _) as [ix|]; [|reflexivity]. cbn [bind].
    rewrite outlier_shift. set (k := remove_statical_outliers ix h). cbv zeta. rewrite obs_shift, noise_shift, points_shift. change (h_sal (shift_hist k)) with (h_sal k).
    destruct (noise_variance _) as [nv|]; [|reflexivity]. cbn [bind]. destruct (signal_variance _) as [sv|]; [|reflexivity]. cbn [bind].
    change [shift_point p] with (map shift_point [p]). rewrite grid_shift. destruct (map_data_grid _ _ _ _ _ _ _ _ _ _ _) as [[[[m0 m1] m2] m3]|]; [|reflexivity]. cbn [bind].
    destruct (signal_variance _) as [sr|]; [|reflexivity]. cbn [bind]. rewrite grid_shift. destruct (map_data_grid _ _ _ _ _ _ _ _ _ _ _) as [[[[r0 r1] r2] r3]|]; [|reflexivity]. cbn [bind].
    do 2 f_equal. cbn [lo_ptmp lo_sal lo_err lo_noise lo_signal lo_points]. f_equal. unfold shift_hist. cbn [h_long h_lat].
    generalize (h_lat k). generalize (h_long k). intros lo. induction lo as [|x lo IH]; intros [|y la]; cbn; try reflexivity. now rewrite IH.
  Qed.
End Shift.
