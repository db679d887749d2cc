(* plot_diagnostics: which file holds what *)
From Coq Require Import String ZArith List Bool Lia.
From Verif Require Import Num Np NumFacts Finders Helper MapProfile Mapping Config Calib Pyplot Plots Spec_Plots Proofs_Plots1 Proofs_Plots4 Proofs_Plots5.
Import ListNotations.
Local Open Scope nat_scope.

Section Saves.
  Context {D : Type}.
  Implicit Types p q : prog D.
  Definition saves p (P : string -> Prop) : Prop := forall f, In f (saved_names p) -> P f.
  Lemma saves_pseq p q P : saves p P -> saves q P -> saves (pseq p q) P.
  Proof.
    intros Hp Hq f Hf. unfold pseq in Hf. destruct (snd p); [auto|]. unfold saved_names in Hf. cbn [fst] in Hf.
    rewrite flat_map_app, in_app_iff in Hf. destruct Hf; [apply Hp|apply Hq]; assumption.
  Qed.
  Lemma saves_pfor {A} (l : list A) (g : A -> prog D) P : (forall a, In a l -> saves (g a) P) -> saves (pfor l g) P.
  Proof.
    induction l as [|a l IH]; intros Hl; [intros f []|]. cbn [pfor fold_right]. apply saves_pseq; [apply Hl; now left|]. apply IH. intros b Hb. apply Hl. now right.
  Qed.
  Lemma saves_pbind {A} (r : res A) (g : A -> prog D) P : (forall a, r = Ok a -> saves (g a) P) -> saves (pbind r g) P.
  Proof. intros Hr. destruct r as [a|e]; [now apply Hr|intros f []]. Qed.
  Lemma saves_none p P : saved_names p = [] -> saves p P.
  Proof. intros E f. rewrite E. intros []. Qed.
  Lemma saves_one f cs (P : string -> Prop) : P f -> saved_names (pdo cs : prog D) = [f] -> saves (pdo cs) P.
  Proof. intros Hp E g. rewrite E. intros [<-|[]]. assumption. Qed.

  Lemma pfor_alone closes (ps : list (prog D)) : (forall p, In p ps -> completes p /\ tidy closes p) ->
    forall i f, i < length ps -> In f (saved_names (nth i ps pnil)) ->
      (forall j, j < length ps -> j <> i -> ~ In f (saved_names (nth j ps pnil))) ->
      alone closes (pfor ps (fun p => p)) f = alone closes (nth i ps pnil) f.
  Proof.
    induction ps as [|p ps IH]; intros Hps i f Hi Hf Hn; [cbn in Hi; lia|]. cbn [pfor fold_right]. fold (pfor ps (fun p => p)).
    destruct (Hps p (or_introl eq_refl)) as [Hc Ht].
    assert (Hc' : forall q, In q ps -> completes q) by (intros; apply Hps; now right).
    destruct i as [|i]; cbn [nth] in *.
    - apply alone_first; [assumption|assumption|].
      assert (Hs : forall qs, (forall j, j < length qs -> ~ In f (saved_names (nth j qs pnil))) -> ~ In f (saved_names (pfor qs (fun p => p)))).
      { intros qs Hq. change (saves (pfor qs (fun p => p)) (fun g => g <> f)) with (forall g, In g (saved_names (pfor qs (fun p => p))) -> g <> f).
        intros Hin. assert (saves (pfor qs (fun p => p)) (fun g => g <> f)); [|exact (H f Hin eq_refl)].
        apply saves_pfor. intros q Hq' g Hg ->. apply (In_nth _ _ pnil) in Hq' as (j & Hj & <-). exact (Hq j Hj Hg). }
      apply Hs. intros j Hj. apply (Hn (S j)); cbn; lia.
    - rewrite alone_second; [|assumption|assumption|].
      + apply IH; [intros; apply Hps; now right|cbn in Hi; lia|assumption|]. intros j Hj Hne. apply (Hn (S j)); cbn; lia.
      + assert (Hs : forall qs k, (forall q, In q qs -> completes q) -> In f (saved_names (nth k qs pnil)) -> In f (saved_names (pfor qs (fun p => p)))).
        { induction qs as [|q qs IHq]; intros k Hq Hin; [destruct k; destruct Hin|]. cbn [pfor fold_right]. rewrite saved_pseq by (apply Hq; now left).
          apply in_app_iff. destruct k; [now left|right]. apply (IHq k); [intros; apply Hq; now right|assumption]. }
        now apply (Hs ps i).
  Qed.
  Lemma saved_pfor_iff (ps : list (prog D)) f : (forall p, In p ps -> completes p) ->
    In f (saved_names (pfor ps (fun p => p))) <-> exists p, In p ps /\ In f (saved_names p).
  Proof.
    induction ps as [|p ps IH]; intros Hc; [cbn; split; [intros []|intros (p & [] & _)]|]. cbn [pfor fold_right]. fold (pfor ps (fun p => p)).
    rewrite saved_pseq, in_app_iff, IH by (intros; apply Hc; cbn; auto). split.
    - intros [Hf|(q & Hq & Hf)]; [exists p|exists q]; cbn; auto.
    - intros (q & [->|Hq] & Hf); [now left|right; eauto].
  Qed.
End Saves.

Section Plots.
  Context {T : Type} `{Num T}.
  Variable interp1d : list T -> list T -> T -> res T.
  Variable interp1d_nan : list T -> list T -> T -> T.
  Variable argsort : list T -> list nat.
  Variable show_bounds : T * T -> string.
  Notation saves := (@saves (item T)).

  Lemma saves_curve xs ys l P : saves (curve xs ys l) P.
  Proof. unfold curve. destruct (Nat.eqb _ _); apply saves_none; reflexivity. Qed.
  Lemma saves_bars h xs ys es P : saves (bars h xs ys es) P.
  Proof. unfold bars. destruct (_ && _); apply saves_none; reflexivity. Qed.
  Lemma saves_limits h a b P : saves (limits h a b) P.
  Proof. unfold limits. destruct (_ && _); apply saves_none; reflexivity. Qed.
  Lemma saves_contours xs ys zs P : saves (contours xs ys zs) P.
  Proof. unfold contours. destruct (_ && _); apply saves_none; reflexivity. Qed.
  Lemma saves_curves xs ys P : saves (curves xs ys) P.
  Proof. apply saves_pfor. intros q _. apply saves_curve. Qed.
  Lemma saves_raise e P : saves (praise e) P.
  Proof. apply saves_none. reflexivity. Qed.

  Ltac sv := repeat first
    [ apply saves_curve | apply saves_bars | apply saves_limits | apply saves_contours | apply saves_curves | apply saves_raise
    | apply saves_pseq | apply saves_pfor; intros ? _ | apply saves_pbind; intros ? _
    | solve [apply saves_none; reflexivity] | solve [intros f [<-|[]]; cbv beta; eauto] ].

  Lemma trajectory_saves floats clim p name : saves (trajectory_plot floats clim p name) (fun f => f = plot_file p name "_trajectory").
  Proof.
    unfold trajectory_plot. sv. destruct a as [i [[n x] y]]. destruct (noted _ _); apply saves_none; reflexivity.
  Qed.
  Lemma theta_sal_saves sal theta ms mt me index profiles p name title :
    saves (theta_sal_plot sal theta ms mt me index profiles p name title) (fun f => f = plot_file p name ("_" ++ title ++ "_theta_sal")).
  Proof. unfold theta_sal_plot. sv. destruct a3; sv. Qed.
  Lemma sal_anom_saves sal ptmp nos p name title :
    saves (sal_anom_plot interp1d_nan argsort show_bounds sal ptmp nos p name title)
          (fun f => exists b, f = plot_file p name ("_" ++ title ++ "_salinity_anomaly_" ++ show_bounds b)).
  Proof. unfold sal_anom_plot. sv. Qed.
  Lemma cal_sal_saves sal cal cal_err sta m fa fe nos p name :
    saves (cal_sal_curve_plot sal cal cal_err sta m fa fe nos p name) (fun f => f = plot_file p name "_salinity_curve").
  Proof. unfold cal_sal_curve_plot. destruct (forallb _ cal); sv. Qed.
  Lemma sal_var_saves levels nr nc mp a b c e pct s nos p name :
    saves (sal_var_plot interp1d levels nr nc mp a b c e pct s nos p name) (fun f => exists n, f = plot_file p name ("_salinity_variance_" ++ n)).
  Proof. unfold sal_var_plot. sv. Qed.
  Lemma profile_saves sal ptmp pres v l tl pl p name :
    saves (t_s_profile_plot sal ptmp pres v l tl pl p name) (fun f => f = plot_file p name "_salinity_profile").
  Proof.
    assert (Hm : forall (l : list T) P, saves (pdo (map (fun y => Draw (Level y)) l)) P).
    { intros l0 P. apply saves_none. induction l0 as [|y l0 IH]; [reflexivity|]. exact IH. }
    unfold t_s_profile_plot. sv; apply Hm.
  Qed.

  (* every plot that completes ends in plt.show() *)
  Lemma tidy_empty_trace (p : prog (item T)) : fst p = [] -> tidy true p.
  Proof. intros E. unfold tidy. now rewrite E. Qed.
  Lemma shown_tidy (p : prog (item T)) : (exists cs, fst p = cs ++ [Show]) -> tidy true p.
  Proof. intros (cs & E). unfold tidy. rewrite E, execs_app. reflexivity. Qed.
  Lemma ends_pseq (p q : prog (item T)) : completes p -> (exists cs, fst q = cs ++ [Show]) -> exists cs, fst (pseq p q) = cs ++ [Show].
  Proof. intros Hp (cs & E). rewrite fst_pseq by assumption. rewrite E. exists (fst p ++ cs). now rewrite app_assoc. Qed.

  Ltac ends := repeat match goal with
    | H : completes (pseq ?p ?q) |- _ => apply completes_pseq in H as [? ?]
    end; repeat (apply ends_pseq; [assumption|]).

  Lemma theta_sal_tidy sal theta ms mt me index profiles p name title :
    completes (theta_sal_plot sal theta ms mt me index profiles p name title) -> tidy true (theta_sal_plot sal theta ms mt me index profiles p name title).
  Proof.
    unfold theta_sal_plot. intros Hc. apply shown_tidy. apply completes_pseq in Hc as [Hp Hc]. apply ends_pseq; [assumption|].
    apply completes_pbind in Hc as (lg & E & Hc). rewrite E. cbn [pbind]. apply completes_pseq in Hc as [Hc _]. apply ends_pseq; [assumption|].
    exists [Savefig (plot_file p name ("_" ++ title ++ "_theta_sal"))]. reflexivity.
  Qed.
  Lemma sal_anom_tidy sal ptmp nos p name title : completes (sal_anom_plot interp1d_nan argsort show_bounds sal ptmp nos p name title) ->
    tidy true (sal_anom_plot interp1d_nan argsort show_bounds sal ptmp nos p name title).
  Proof.
    unfold sal_anom_plot. intros Hc. apply completes_pbind in Hc as (bz & E & Hc). rewrite E. cbn [pbind].
    pose proof (proj1 (completes_pfor _ _) Hc) as Hb. apply tidy_pfor. intros b Hin. specialize (Hb b Hin). split; [assumption|].
    apply shown_tidy. cbv beta in *. ends. eexists [_]. reflexivity.
  Qed.
  Lemma cal_sal_tidy sal cal cal_err sta m fa fe nos p name : completes (cal_sal_curve_plot sal cal cal_err sta m fa fe nos p name) ->
    tidy true (cal_sal_curve_plot sal cal cal_err sta m fa fe nos p name).
  Proof.
    unfold cal_sal_curve_plot. destruct (forallb _ cal); [reflexivity|]. cbv zeta. intros Hc. apply shown_tidy.
    apply completes_pseq in Hc as [H1 Hc]. apply ends_pseq; [assumption|].
    apply completes_pseq in Hc as [H2 Hc]. apply ends_pseq; [assumption|].
    apply completes_pseq in Hc as [H3 Hc]. apply ends_pseq; [assumption|].
    apply completes_pseq in Hc as [H4 Hc]. apply ends_pseq; [assumption|]. eexists [_]. reflexivity.
  Qed.
  Lemma sal_var_tidy levels nr nc mp a b c e pct s nos p name : completes (sal_var_plot interp1d levels nr nc mp a b c e pct s nos p name) ->
    tidy true (sal_var_plot interp1d levels nr nc mp a b c e pct s nos p name).
  Proof.
    unfold sal_var_plot. intros Hc. apply completes_pbind in Hc as (rows & E & Hc). rewrite E. cbn [pbind].
    pose proof (proj1 (completes_pfor _ _) Hc) as Hb. apply tidy_pfor. intros ir Hin. specialize (Hb ir Hin). split; [assumption|].
    apply shown_tidy. cbv beta zeta in *. ends. exists []. reflexivity.
  Qed.
  Lemma profile_tidy sal ptmp pres v l tl pl p name : completes (t_s_profile_plot sal ptmp pres v l tl pl p name) ->
    tidy true (t_s_profile_plot sal ptmp pres v l tl pl p name).
  Proof. unfold t_s_profile_plot. intros Hc. apply shown_tidy. cbv beta in *. ends. eexists [_]. reflexivity. Qed.

  (* ---- the plots of plot_diagnostics ---- *)
  Section Dashboard.
    Variables (src : source T) (pos : positions T) (d : mapped T) (c : calfile T) (k : calib T) (levels : nat) (p : @plot_paths T) (name : string).
    Let nr := src_levels src.
    Let nc := length (src_sal src).
    Let no := src_no src.
    Let dash := plot_diagnostics interp1d interp1d_nan argsort show_bounds src pos d c k levels p name.
    Definition dash_clim : list (T * T) := map (fun h => (east_west (fst (fst h)), snd (fst h))) (selected_hist d).
    Definition dash_theta_sal (th : @thetas T) (sal : list (list T)) (title : string) : prog (item T) :=
      theta_sal_plot sal (src_ptmp src) (m_cols (la_mapped_sal d)) (m_cols (la_ptmp d)) (m_cols (la_map_sal_errors d)) (th_index th) no p name title.
    Definition dash_plots floats theta_lt theta_gt pres_lt pres_gt percent (th : @thetas T) : list (prog (item T)) :=
      [pseq (trajectory_plot floats dash_clim p name) (pdo [Show]);
       dash_theta_sal th (src_sal src) "uncalibrated";
       sal_anom_plot interp1d_nan argsort show_bounds (src_sal src) (src_ptmp src) no p name "uncalibrated";
       cal_sal_curve_plot (src_sal src) (k_sal k) (k_sal_err k) (k_sta_sal k) (k_sta_mean k) (k_factor k) (k_factor_err k) no p name;
       dash_theta_sal th (k_sal k) "calibrated";
       sal_var_plot interp1d levels nr nc (of_cols (m_cols (la_ptmp d))) theta_lt theta_gt pres_lt pres_gt percent (seven_of src d k) no p name;
       sal_anom_plot interp1d_nan argsort show_bounds (k_sal k) (src_ptmp src) no p name "calibrated";
       t_s_profile_plot (src_sal src) (src_ptmp src) (src_pres src) (var_sal_theta th) (theta_levels th) (t_levels th) (p_levels th) p name].

    Lemma pseq_nil (q : prog (item T)) : pseq q pnil = q.
    Proof. unfold pseq. destruct q as [cs [e|]]; cbn; [reflexivity|now rewrite app_nil_r]. Qed.

    Lemma dashboard_plots : completes dash -> exists floats theta_lt theta_gt pres_lt pres_gt percent th mats,
      float_rows no (concat (ps_lat pos)) (map east_west (concat (ps_long pos))) = Ok floats
      /\ find_10thetas interp1d nr nc (of_cols (src_sal src)) (of_cols (src_ptmp src)) (of_cols (src_pres src))
           (of_cols (m_cols (la_ptmp d))) theta_lt theta_gt pres_lt pres_gt percent = Ok (th, mats)
      /\ window_bound (cf_theta_lt c) = Ok theta_lt /\ window_bound (cf_theta_gt c) = Ok theta_gt
      /\ window_bound (cf_pres_lt c) = Ok pres_lt /\ window_bound (cf_pres_gt c) = Ok pres_gt
      /\ dash = pfor (dash_plots floats theta_lt theta_gt pres_lt pres_gt percent th) (fun p => p)
      /\ forall q, In q (dash_plots floats theta_lt theta_gt pres_lt pres_gt percent th) -> completes q.
    Proof.
      intros Hc. unfold dash, plot_diagnostics in *. fold nr nc no in Hc |- *. destruct (selected_hist d) as [|h hs] eqn:Eh; [discriminate|].
      rewrite <- Eh in *. apply completes_pbind in Hc as (floats & Ef & Hc). rewrite Ef. cbn [pbind].
      apply completes_pseq in Hc as [H0 Hc]. apply completes_pbind in Hc as ([[[[[tlt tgt] plt] pgt] pct] th] & Eq & Hc). rewrite Eq. cbn [pbind].
      apply bind_ok in Eq as (a1 & E1 & Eq). apply bind_ok in Eq as (a2 & E2 & Eq). apply bind_ok in Eq as (a3 & E3 & Eq).
      apply bind_ok in Eq as (a4 & E4 & Eq). apply bind_ok in Eq as (a5 & E5 & Eq). apply bind_ok in Eq as ([th' mats] & E6 & Eq).
      injection Eq as -> -> -> -> -> ->.
      exists floats, tlt, tgt, plt, pgt, pct, th, mats. split; [reflexivity|]. do 5 (split; [assumption|]). split.
      - unfold dash_plots, pfor. cbn [fold_right]. rewrite pseq_nil. reflexivity.
      - apply completes_pseq in Hc as [H1 Hc]. apply completes_pseq in Hc as [H2 Hc]. apply completes_pseq in Hc as [H3 Hc].
        apply completes_pseq in Hc as [H4 Hc]. apply completes_pseq in Hc as [H5 Hc]. apply completes_pseq in Hc as [H6 H7].
        intros q [<-|[<-|[<-|[<-|[<-|[<-|[<-|[<-|[]]]]]]]]]; assumption.
    Qed.

    Definition group (i : nat) (f : string) : Prop :=
      match i with
      | 0 => f = plot_file p name "_trajectory"
      | 1 => f = plot_file p name "_uncalibrated_theta_sal"
      | 2 => exists b, f = plot_file p name ("_uncalibrated_salinity_anomaly_" ++ show_bounds b)
      | 3 => f = plot_file p name "_salinity_curve"
      | 4 => f = plot_file p name "_calibrated_theta_sal"
      | 5 => exists n, f = plot_file p name ("_salinity_variance_" ++ n)
      | 6 => exists b, f = plot_file p name ("_calibrated_salinity_anomaly_" ++ show_bounds b)
      | 7 => f = plot_file p name "_salinity_profile"
      | _ => False
      end.
    Lemma group_unique i j f : group i f -> group j f -> i = j.
    Proof.
      destruct i as [|[|[|[|[|[|[|[|i]]]]]]]], j as [|[|[|[|[|[|[|[|j]]]]]]]]; cbn [group]; intros Hi Hj; try reflexivity; try contradiction; exfalso;
        repeat match goal with H : exists _, _ |- _ => destruct H as [? H] end; subst f;
        match goal with H : plot_file _ _ _ = plot_file _ _ _ |- _ => apply plot_file_inj in H; discriminate end.
    Qed.
    Lemma dash_group floats a b e f pct th i g : i < 8 -> In g (saved_names (nth i (dash_plots floats a b e f pct th) pnil)) -> group i g.
    Proof.
      intros Hi. destruct i as [|[|[|[|[|[|[|[|i]]]]]]]]; [| | | | | | | |lia]; cbn [nth dash_plots group]; intros Hg.
      - revert g Hg. apply saves_pseq; [apply trajectory_saves|apply saves_none; reflexivity].
      - revert Hg. apply theta_sal_saves.
      - apply sal_anom_saves in Hg as (b0 & ->). exists b0. reflexivity.
      - revert Hg. apply cal_sal_saves.
      - revert Hg. apply theta_sal_saves.
      - revert Hg. apply sal_var_saves.
      - apply sal_anom_saves in Hg as (b0 & ->). exists b0. reflexivity.
      - revert Hg. apply profile_saves.
    Qed.
    Lemma dash_tidy floats a b e f pct th q : In q (dash_plots floats a b e f pct th) -> completes q -> tidy true q.
    Proof.
      intros [<-|[<-|[<-|[<-|[<-|[<-|[<-|[<-|[]]]]]]]]] Hc.
      - apply completes_pseq in Hc as [Hc _]. apply (tidy_end _ []). assumption.
      - now apply theta_sal_tidy.
      - now apply sal_anom_tidy.
      - now apply cal_sal_tidy.
      - now apply theta_sal_tidy.
      - now apply sal_var_tidy.
      - now apply sal_anom_tidy.
      - now apply profile_tidy.
    Qed.

    Lemma dashboard_files floats a b e f pct th :
      dash = pfor (dash_plots floats a b e f pct th) (fun p => p) -> (forall q, In q (dash_plots floats a b e f pct th) -> completes q) ->
      (forall q g, In q (dash_plots floats a b e f pct th) -> In g (saved_names q) -> alone true dash g = alone true q g)
      /\ (forall g, In g (saved_names dash) <-> exists q, In q (dash_plots floats a b e f pct th) /\ In g (saved_names q)).
    Proof.
      intros Ed Hc. rewrite Ed. split.
      - intros q g Hq Hg. apply (In_nth _ _ pnil) in Hq as (i & Hi & <-). apply pfor_alone; [|assumption|assumption|].
        + intros q Hq. split; [now apply Hc|]. eapply dash_tidy; eauto.
        + intros j Hj Hne Hin. apply Hne. cbn [length dash_plots] in Hi, Hj.
          eapply group_unique; eapply dash_group; eauto.
      - intros g. now apply saved_pfor_iff.
    Qed.
  End Dashboard.
End Plots.
