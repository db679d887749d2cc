(* the statements about the plots in their final form *)
From Coq Require Import String ZArith List Bool Reals Lia Lra.
From Verif Require Import Num Np NumFacts Finders Spec_Finders MapProfile Mapping Config Calib Pyplot Plots Spec_Plots Spec_Plots2 Spec_Plots3
  Proofs_Plots1 Proofs_Plots4 Proofs_Plots6 Proofs_Plots7 Proofs_Plots8 Proofs_Plots9.
Import ListNotations.
Local Open Scope nat_scope.

Section Final.
  Context {T : Type} {NT : Num T}.
  Lemma theta_sal_profiles (sal theta map_sal map_theta map_errors : list (list T)) index profiles p name title :
    completes (theta_sal_plot sal theta map_sal map_theta map_errors index profiles p name title) ->
    exists labels : nat -> label T,
      drawn (theta_sal_plot sal theta map_sal map_theta map_errors index profiles p name title) =
        flat_map (fun i => Curve (nth i sal []) (nth i theta []) (labels i) ::
          flat_map (fun row => match nth i row None with
                               | Some r => [Bars true [nth r (nth i map_sal []) nnan] [nth r (nth i map_theta []) nnan] [nth r (nth i map_errors []) nnan]]
                               | None => [] end) index) (seq 0 (length sal)) /\
      (forall i, labels i = NoLabel \/ labels i = Number (nth i profiles nnan)) /\
      saved_names (theta_sal_plot sal theta map_sal map_theta map_errors index profiles p name title) = [plot_file p name ("_" ++ title ++ "_theta_sal")].
  Proof.
    intros Hc. destruct (theta_sal_drawn sal theta map_sal map_theta map_errors index profiles p name title Hc) as (legend & _ & Hd & Hs).
    exists (label_of profiles legend). split; [exact Hd|]. split; [|exact Hs]. intros i. unfold label_of. destruct (existsb _ _); auto.
  Qed.

  Variable interp1d : list T -> list T -> T -> res T.
  Variable interp1d_nan : list T -> list T -> T -> T.
  Variable argsort : list T -> list nat.
  Variable show_bounds : T * T -> string.
  Variables (src : source T) (pos : positions T) (d : mapped T) (c : calfile T) (k : calib T) (levels : nat) (p : @plot_paths T) (name : string).
  Let dash := plot_diagnostics interp1d interp1d_nan argsort show_bounds src pos d c k levels p name.
  Lemma dashboard_own_files : completes dash ->
    exists floats theta_lt theta_gt pres_lt pres_gt percent th mats,
      run_levels interp1d src d pos c floats theta_lt theta_gt pres_lt pres_gt percent th mats /\
      let plots := eight_plots interp1d interp1d_nan argsort show_bounds src d k levels p name floats theta_lt theta_gt pres_lt pres_gt percent th in
      (forall i f, i < 8 -> In f (saved_names (nth i plots pnil)) ->
         In f (saved_names dash) /\ alone true dash f = alone true (nth i plots pnil) f /\ file_of show_bounds p name i f
         /\ forall j, file_of show_bounds p name j f -> j = i) /\
      (forall f, In f (saved_names dash) -> exists i, i < 8 /\ In f (saved_names (nth i plots pnil))).
  Proof.
    intros Hc. destruct (dashboard_plots interp1d interp1d_nan argsort show_bounds src pos d c k levels p name Hc)
      as (floats & a & b & e & f & pct & th & mats & Hr & Hth & Ha & Hb & He & Hf & Ed & Hcs).
    destruct (dashboard_files interp1d interp1d_nan argsort show_bounds src pos d c k levels p name floats a b e f pct th Ed Hcs) as [Hown Hnames].
    exists floats, a, b, e, f, pct, th, mats. split.
    { exact (conj Hr (conj Hth (conj Ha (conj Hb (conj He Hf))))). }
    cbv zeta. split.
    - intros i g Hi Hg. assert (Hin : In (nth i (dash_plots interp1d interp1d_nan argsort show_bounds src d k levels p name floats a b e f pct th) pnil)
        (dash_plots interp1d interp1d_nan argsort show_bounds src d k levels p name floats a b e f pct th)) by (apply nth_In; exact Hi).
      split; [|split; [|split]].
      + apply Hnames. exists (nth i (dash_plots interp1d interp1d_nan argsort show_bounds src d k levels p name floats a b e f pct th) pnil). split; [exact Hin|exact Hg].
      + exact (Hown _ g Hin Hg).
      + exact (dash_group interp1d interp1d_nan argsort show_bounds src d k levels p name floats a b e f pct th i g Hi Hg).
      + intros j Hj. apply (group_unique show_bounds p name j i g Hj).
        exact (dash_group interp1d interp1d_nan argsort show_bounds src d k levels p name floats a b e f pct th i g Hi Hg).
    - intros g Hg. apply Hnames in Hg as (q & Hq & Hg). apply (In_nth _ _ pnil) in Hq as (i & Hi & <-). exists i. split; [exact Hi|exact Hg].
  Qed.
  Lemma dashboard_open_files : forallb (fun c => forallb nisnan c) (k_sal k) = false -> completes dash ->
    exists floats theta_lt theta_gt pres_lt pres_gt percent th mats,
      float_rows (src_no src) (concat (ps_lat pos)) (map east_west (concat (ps_long pos))) = Ok floats
      /\ find_10thetas interp1d (src_levels src) (length (src_sal src)) (of_cols (src_sal src)) (of_cols (src_ptmp src)) (of_cols (src_pres src))
           (of_cols (m_cols (la_ptmp d))) theta_lt theta_gt pres_lt pres_gt percent = Ok (th, mats) /\
      let plots := eight_plots interp1d interp1d_nan argsort show_bounds src d k levels p name floats theta_lt theta_gt pres_lt pres_gt percent th in
      let curve := nth 3 plots pnil in let profile := nth 7 plots pnil in
      let mixed := in_axes 0 (drawn (trajectory_plot floats (hist_places d) p name) ++ skipn 6 (drawn curve)) in
      alone true curve (plot_file p name "_salinity_curve") = Some (in_axes 1 (firstn 6 (drawn curve)) ++ in_axes 2 (skipn 6 (drawn curve))) /\
      alone false dash (plot_file p name "_salinity_curve") = Some mixed /\
      exists own, alone true profile (plot_file p name "_salinity_profile") = Some own /\
        alone false dash (plot_file p name "_salinity_profile") = Some (mixed ++ own).
  Proof.
    intros Hk Hc. destruct (dash_open_files interp1d interp1d_nan argsort show_bounds src pos d c k levels p name Hk Hc)
      as (floats & a & b & e & f & pct & th & mats & Hr & Hth & Hcurve & Hprof).
    assert (Hcal : completes (cal_sal_curve_plot (src_sal src) (k_sal k) (k_sal_err k) (k_sta_sal k) (k_sta_mean k) (k_factor k) (k_factor_err k) (src_no src) p name)).
    { destruct (dashboard_plots interp1d interp1d_nan argsort show_bounds src pos d c k levels p name Hc) as (fl & a1 & b1 & e1 & f1 & pct1 & th1 & mats1 & _ & _ & _ & _ & _ & _ & _ & Hcs).
      apply Hcs. right. right. right. left. reflexivity. }
    exists floats, a, b, e, f, pct, th, mats. split; [exact Hr|]. split; [exact Hth|]. cbv zeta. split; [|split; [exact Hcurve|exact Hprof]].
    exact (cal_file_closing src k p name Hk Hcal).
  Qed.
End Final.

Lemma traj_places (floats : list (R * R * R)) (clim : list (R * R)) (p : @plot_paths XR) name x0 x1 y0 y1 :
  least (map fst clim) x0 -> greatest (map fst clim) x1 -> least (map snd clim) y0 -> greatest (map snd clim) y1 ->
  let plot := trajectory_plot (map rowX floats) (map placeX clim) p name in
  flat_map (fun d => match d with Curve xs ys l => [(xs, ys, l)] | _ => [] end) (drawn plot) =
  [(map (fun f => Fin (snd (fst f))) floats, map (fun f => Fin (snd f)) floats, Text "Float Profiles");
   (map (fun q => Fin (fst q)) clim, map (fun q => Fin (snd q)) clim, Text "Climatology")].
Proof.
  intros H0 H1 H2 H3. cbv zeta. rewrite (traj_trace floats clim p name x0 x1 y0 y1 H0 H1 H2 H3).
  unfold drawn. cbn [fst pdo]. rewrite flat_map_app. cbn [flat_map]. rewrite app_nil_r.
  assert (Ed : forall l : list (item XR), flat_map (fun c => match c with Draw d => [d] | _ => [] end) (map Draw l) = l).
  { induction l as [|d l IH]; [reflexivity|]. cbn. now rewrite IH. }
  rewrite Ed. unfold traj_items. rewrite flat_map_app. cbn [flat_map app].
  assert (En : flat_map (fun d : item XR => match d with Curve xs ys l => [(xs, ys, l)] | _ => [] end) (traj_notes floats) = []).
  { unfold traj_notes. induction (combine _ _) as [|q l IH]; [reflexivity|]. cbn [flat_map]. rewrite flat_map_app, IH, app_nil_r.
    destruct (noted _ _); reflexivity. }
  now rewrite En.
Qed.
Lemma cal_sal_nothing {T} {NT : Num T} (sal cal cal_err sta : list (list T)) sta_mean factor factor_err nos p name :
  (forall c x, In c cal -> In x c -> nisnan x = true) ->
  cal_sal_curve_plot sal cal cal_err sta sta_mean factor factor_err nos p name = pnil.
Proof.
  intros H. unfold cal_sal_curve_plot. assert (E : forallb (fun c => forallb nisnan c) cal = true).
  { apply forallb_forall. intros c Hc. apply forallb_forall. intros x Hx. now apply (H c). }
  now rewrite E.
Qed.
