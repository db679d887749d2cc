(* trajectory_plot; figures that stay open *)
From Coq Require Import String ZArith List Bool Reals Lia Lra.
From Verif Require Import Num Np NumFacts NpFacts Finders Spec_Finders Proofs_Finders Proofs_Besthist Proofs_Thetas Proofs_Thetas2 Helper MapProfile Mapping Config Calib Pyplot Plots Spec_Plots Spec_Plots2
  Proofs_Plots1 Proofs_Plots5 Proofs_Plots6 Proofs_Plots7.
Import ListNotations.
Local Open Scope nat_scope.

(* ---- trajectory_plot ---- *)
Section Trajectory.
  Variables (floats : list (R * R * R)) (clim : list (R * R)) (p : @plot_paths XR) (name : string) (x0 x1 y0 y1 : R).
  Hypothesis Hx0 : least (map fst clim) x0.
  Hypothesis Hx1 : greatest (map fst clim) x1.
  Hypothesis Hy0 : least (map snd clim) y0.
  Hypothesis Hy1 : greatest (map snd clim) y1.
  Let n := length floats.
  Let plot := trajectory_plot (map rowX floats) (map placeX clim) p name.
  Definition traj_notes : list (item XR) :=
    flat_map (fun q => if noted n (fst q) then [note_of n (fst q) (snd q)] else []) (combine (seq 0 n) floats).
  Definition traj_items : list (item XR) :=
    [Curve (map (fun f => Fin (snd (fst f))) floats) (map (fun f => Fin (snd f)) floats) (Text "Float Profiles");
     Curve (map (fun q => Fin (fst q)) clim) (map (fun q => Fin (snd q)) clim) (Text "Climatology");
     Limits true (Fin (x0 - 20)) (Fin (x1 + 20)); Limits false (Fin (y0 - 15)) (Fin (y1 + 15))] ++ traj_notes.

  Lemma traj_trace : plot = pdo (map Draw traj_items ++ [Savefig (plot_file p name "_trajectory")]).
  Proof.
    unfold plot, trajectory_plot. rewrite !map_map. cbn [rowX placeX fst snd].
    assert (Ex : map (fun x => Fin (fst x)) clim = map Fin (map fst clim)) by (now rewrite map_map).
    assert (Ey : map (fun x => Fin (snd x)) clim = map Fin (map snd clim)) by (now rewrite map_map).
    rewrite Ex, Ey, (min_nos _ _ Hx0), (max_nos _ _ Hx1), (min_nos _ _ Hy0), (max_nos _ _ Hy1).
    unfold curve. rewrite !map_length, !Nat.eqb_refl.
    assert (Ep : pfor (combine (seq 0 n) (map rowX floats)) (fun ir => let '(idx, (number, long, lat)) := ir in
                   if noted n idx then pdo [Draw (Note number long lat (ndiv (nofZ (Z.of_nat idx + 1)) (nofZ (Z.of_nat n))))] else pnil)
                 = (pdo (map Draw traj_notes) : prog (item XR))).
    { unfold traj_notes. assert (Hn : forall k, k < n -> ndiv (nofZ (Z.of_nat k + 1)) (nofZ (Z.of_nat n)) = Fin (INR (S k) / INR n)).
      { intros k Hk. change (nofZ (Z.of_nat k + 1)) with (Fin (IZR (Z.of_nat k + 1))). change (nofZ (Z.of_nat n)) with (Fin (IZR (Z.of_nat n))).
        rewrite ndiv_fin; [|apply not_0_IZR; lia]. f_equal. rewrite !INR_IZR_INZ. do 2 f_equal. lia. }
      assert (G : forall fs k, k + length fs <= n ->
        pfor (combine (seq k (length fs)) (map rowX fs)) (fun ir => let '(idx, (number, long, lat)) := ir in
                   if noted n idx then pdo [Draw (Note number long lat (ndiv (nofZ (Z.of_nat idx + 1)) (nofZ (Z.of_nat n))))] else pnil)
        = (pdo (map Draw (flat_map (fun q => if noted n (fst q) then [note_of n (fst q) (snd q)] else []) (combine (seq k (length fs)) fs))) : prog (item XR))).
      { induction fs as [|f fs IH]; intros k Hk; [reflexivity|]. cbn [length seq combine map flat_map pfor fold_right fst snd] in *.
        match goal with |- pseq _ (fold_right _ _ (combine ?a ?b)) = _ => fold (combine a b) end.
        specialize (IH (S k) ltac:(lia)). unfold pfor in IH. rewrite IH. rewrite (Hn k) by lia. unfold rowX at 1.
        destruct (noted n k); reflexivity. }
      apply G. unfold n. lia. }
    fold n in Ep |- *. rewrite Ep. unfold traj_items. rewrite <- Ex, <- Ey. reflexivity.
  Qed.

  Lemma noted_iff i : i < n -> noted n i = true <-> annotated n i.
  Proof.
    intros Hi. unfold noted, annotated. rewrite !orb_true_iff, !Nat.eqb_eq. split.
    - intros [[H|H]|H]; [auto| |right; right; lia]. right. left. apply Nat.mod_divides in H as [k Hk]; [|lia]. exists k. lia.
    - intros [H|[[k H]|H]]; [auto| |right; lia]. left. right. subst. rewrite Nat.mul_comm. apply Nat.mod_mul. lia.
  Qed.
  Lemma traj_note_iff number x y shade : In (Note number x y shade) (drawn plot) <->
    exists i f, nth_error floats i = Some f /\ annotated n i /\ Note number x y shade = note_of n i f.
  Proof.
    rewrite traj_trace. unfold drawn. cbn [fst pdo]. rewrite flat_map_app. cbn [flat_map]. rewrite app_nil_r.
    assert (Ed : flat_map (fun c => match c with Draw d => [d] | _ => [] end) (map Draw traj_items) = traj_items).
    { generalize traj_items. induction l as [|d l IH]; [reflexivity|]. cbn. now rewrite IH. }
    rewrite Ed. unfold traj_items. rewrite in_app_iff. cbn [In]. split.
    - intros [[H|[H|[H|[H|[]]]]]|H]; try discriminate. unfold traj_notes in H. apply in_flat_map in H as ([i f] & Hin & H). cbn [fst snd] in H.
      assert (Hi : i < n /\ nth_error floats i = Some f).
      { apply In_nth_error in Hin as (k & Hk). assert (k < length (combine (seq 0 n) floats)) as Hl by (apply nth_error_Some; congruence).
        rewrite combine_length, seq_length in Hl. fold n in Hl.
        assert (E : nth k (combine (seq 0 n) floats) (0, f) = (i, f)) by (now apply nth_error_nth).
        rewrite combine_nth in E by (now rewrite seq_length). rewrite seq_nth in E by lia. injection E as E1 E2. cbn in E1. subst i.
        split; [lia|]. rewrite <- E2. apply nth_error_nth'. fold n. lia. }
      destruct Hi as [Hi Hf]. destruct (noted n i) eqn:En; [|destruct H]. destruct H as [H|[]]. exists i, f. split; [assumption|].
      split; [now apply noted_iff|now symmetry].
    - intros (i & f & Hf & Ha & E). right. unfold traj_notes. apply in_flat_map. exists (i, f).
      assert (Hi : i < n) by (apply nth_error_Some; congruence). split.
      + apply nth_error_In with (n := i). apply nth_error_nth with (d := f) in Hf.
        rewrite nth_error_nth' with (d := (0, f)) by (rewrite combine_length, seq_length; fold n; lia).
        rewrite combine_nth by (now rewrite seq_length). rewrite seq_nth by assumption. now rewrite Hf.
      + cbn [fst snd]. rewrite (proj2 (noted_iff i Hi) Ha). left. now symmetry.
  Qed.
  Lemma traj_shade i : i < n -> (0 < INR (S i) / INR n <= 1)%R.
  Proof.
    intros Hi. assert (0 < INR n)%R by (apply lt_0_INR; lia). split.
    - apply Rdiv_lt_0_compat; [apply lt_0_INR; lia|assumption].
    - apply Rmult_le_reg_r with (INR n); [assumption|]. unfold Rdiv. rewrite Rmult_assoc, Rinv_l, Rmult_1_r, Rmult_1_l by lra. apply le_INR. lia.
  Qed.
  Lemma traj_limits : completes plot /\ saved_names plot = [plot_file p name "_trajectory"]
    /\ In (Limits true (Fin (x0 - 20)) (Fin (x1 + 20))) (drawn plot) /\ In (Limits false (Fin (y0 - 15)) (Fin (y1 + 15))) (drawn plot)
    /\ (forall h a b, In (Limits h a b) (drawn plot) -> (h = true /\ a = Fin (x0 - 20) /\ b = Fin (x1 + 20)) \/ (h = false /\ a = Fin (y0 - 15) /\ b = Fin (y1 + 15))).
  Proof.
    rewrite traj_trace. split; [reflexivity|].
    assert (Ed : drawn (pdo (map Draw traj_items ++ [Savefig (plot_file p name "_trajectory")])) = traj_items).
    { unfold drawn. cbn [fst pdo]. rewrite flat_map_app. cbn [flat_map]. rewrite app_nil_r.
      generalize traj_items. induction l as [|d l IH]; [reflexivity|]. cbn. now rewrite IH. }
    rewrite Ed. split; [|split; [|split]].
    - unfold saved_names. cbn [fst pdo]. rewrite flat_map_app. cbn [flat_map].
      assert (E : flat_map (fun c => match c with Savefig f => [f] | _ => [] end) (map Draw traj_items) = []).
      { generalize traj_items. induction l as [|d l IH]; [reflexivity|]. cbn. exact IH. }
      rewrite E. reflexivity.
    - unfold traj_items. apply in_app_iff. left. cbn. auto.
    - unfold traj_items. apply in_app_iff. left. cbn. auto.
    - intros h a b Hin. unfold traj_items in Hin. apply in_app_iff in Hin. cbn [In] in Hin.
      destruct Hin as [[H|[H|[H|[H|[]]]]]|H]; try discriminate.
      + injection H as <- <- <-. auto.
      + injection H as <- <- <-. auto.
      + exfalso. unfold traj_notes in H. apply in_flat_map in H as (q & _ & H). destruct (noted n (fst q)); [|destruct H]. destruct H as [H|[]]. discriminate.
  Qed.
End Trajectory.

Lemma east_west_range x : (0 <= x <= 360)%R -> exists y, @east_west XR XR_Num (Fin x) = Fin y /\ (-180 < y <= 180)%R /\ (y = x \/ y = x - 360)%R.
Proof.
  intros Hx. unfold east_west. change (nltb (nofZ 180) (Fin x)) with (Rltb 180 x). destruct (Rltb 180 x) eqn:E.
  - apply Rltb_true in E. exists (x - 360)%R. split; [reflexivity|]. split; [lra|auto].
  - apply Rltb_false in E. exists x. split; [reflexivity|]. split; [lra|auto].
Qed.

(* ---- figures that stay open ---- *)
Section Open.
  Context {D : Type}.
  Implicit Types s : session D.
  Definition fig1 s (F : figure D) : Prop := find (fun f => Nat.eqb (fg_num f) 1) (open_figures s) = Some F.
  Definition calm (c : command D) : bool := match c with Figure _ => false | _ => true end.
  Definition behind s (F : figure D) : Prop := exists f r, open_figures s = f :: r /\ fg_num f <> 1 /\ find (fun f => Nat.eqb (fg_num f) 1) r = Some F.

  Lemma max_num_find l F : find (fun f : figure D => Nat.eqb (fg_num f) 1) l = Some F -> 1 <= max_num l.
  Proof.
    induction l as [|f l IH]; [discriminate|]. cbn [find max_num fold_right]. destruct (Nat.eqb_spec (fg_num f) 1); [lia|].
    intros E. specialize (IH E). unfold max_num in IH. lia.
  Qed.
  Lemma behind_fig1 s F : behind s F -> fig1 s F.
  Proof. intros (f & r & E & Hn & Hf). unfold fig1. rewrite E. cbn. destruct (Nat.eqb_spec (fg_num f) 1); [contradiction|assumption]. Qed.
  Lemma behind_new s F : fig1 s F -> behind (exec false s NewFigure) F.
  Proof.
    intros E. unfold fig1 in E. eexists _, (open_figures s). split; [reflexivity|]. split; [|assumption]. cbn. apply max_num_find in E. lia.
  Qed.
  Lemma behind_exec c s F : calm c = true -> behind s F -> behind (exec false s c) F.
  Proof.
    intros Hc Hb. pose proof (behind_fig1 _ _ Hb) as Hf. destruct Hb as (f & r & E & Hn & Hr).
    destruct c; try discriminate Hc.
    - now apply behind_new.
    - eexists _, r. cbn [exec open_figures]. rewrite E. cbn [on_current]. split; [reflexivity|]. split; assumption.
    - eexists _, r. cbn [exec open_figures]. rewrite E. cbn [on_current]. split; [reflexivity|]. split; assumption.
    - exists f, r. cbn [exec open_figures]. rewrite E. cbn [on_current]. split; [reflexivity|]. split; assumption.
    - exists f, r. cbn [exec open_figures]. split; [assumption|]. split; assumption.
  Qed.
  Lemma behind_execs cs : forall s F, forallb calm cs = true -> behind s F -> behind (execs false cs s) F.
  Proof.
    induction cs as [|c cs IH]; intros s F Hc Hb; [assumption|]. cbn [forallb] in Hc. apply andb_true_iff in Hc as [Hc Hcs].
    cbn [execs fold_left]. fold (execs false cs (exec false s c)). apply IH; [assumption|]. now apply behind_exec.
  Qed.
  (* a program that leaves figure 1 as it is *)
  Definition own (cs : list (command D)) : Prop := forall s F, fig1 s F -> fig1 (execs false cs s) F.
  Lemma own_new cs : forallb calm cs = true -> own (NewFigure :: cs).
  Proof. intros Hc s F Hf. cbn [execs fold_left]. fold (execs false cs (exec false s NewFigure)). apply behind_fig1. apply behind_execs; [assumption|]. now apply behind_new. Qed.
  Lemma own_app cs ds : own cs -> own ds -> own (cs ++ ds).
  Proof. intros Hc Hd s F Hf. rewrite execs_app. auto. Qed.
  Lemma own_flat {A} (g : A -> list (command D)) l : (forall a, In a l -> own (g a)) -> own (flat_map g l).
  Proof.
    induction l as [|a l IH]; intros Hl; [intros s F Hf; assumption|]. cbn [flat_map]. apply own_app; [apply Hl; now left|].
    apply IH. intros b Hb. apply Hl. now right.
  Qed.

  Definition still (p : prog D) : Prop := forallb calm (fst p) = true.
  Lemma still_pseq p q : still p -> still q -> still (pseq p q).
  Proof. intros Hp Hq. unfold still, pseq. destruct (snd p); [assumption|]. cbn [fst]. rewrite forallb_app. now rewrite Hp, Hq. Qed.
  Lemma still_pfor {A} (l : list A) (g : A -> prog D) : (forall a, still (g a)) -> still (pfor l g).
  Proof. intros Hg. induction l as [|a l IH]; [reflexivity|]. cbn [pfor fold_right]. now apply still_pseq. Qed.
  Lemma still_pbind {A} (r : res A) (g : A -> prog D) : (forall a, still (g a)) -> still (pbind r g).
  Proof. intros Hg. destruct r; [apply Hg|reflexivity]. Qed.
  Lemma still_draws p : draws p -> still p.
  Proof. intros (ds & E). unfold still. rewrite E. clear E. induction ds; [reflexivity|assumption]. Qed.

  Lemma unsaved closes cs : forall s f, ~ In f (saved_names (pdo cs)) -> file_content (execs closes cs s) f = file_content s f.
  Proof.
    induction cs as [|c cs IH]; intros s f Hn; [reflexivity|]. cbn [execs fold_left]. fold (execs closes cs (exec closes s c)).
    assert (Hn2 : ~ In f (saved_names (pdo cs)) /\ ~ In f (match c with Savefig g => [g] | _ => [] end)).
    { unfold saved_names in *. cbn [fst pdo flat_map] in *. rewrite in_app_iff in Hn. split; intros H; apply Hn; auto. }
    destruct Hn2 as [Hn1 Hn2]. rewrite IH by assumption. destruct c; try reflexivity. cbn [In] in Hn2. unfold file_content. cbn [exec files find fst].
    destruct (String.eqb_spec file f) as [->|Hne]; [exfalso; auto|]. now rewrite find_filter by congruence.
  Qed.

  Lemma execs_first_draw closes (d : D) ds : execs closes (map Draw (d :: ds)) empty_session = mkSession [mkFigure 1 0 (in_axes 0 (d :: ds))] [].
  Proof.
    cbn [map execs fold_left]. change (exec closes empty_session (Draw d)) with (mkSession [mkFigure 1 0 [(0, d)]] []).
    change (fold_left (exec closes) (map Draw ds) ?s) with (execs closes (map Draw ds) s).
    rewrite execs_plain by apply plain_draw. cbn [fg_num fg_axes fg_content]. rewrite ink_draw, axes_draw. reflexivity.
  Qed.
  Lemma activate_fig1 (l : list (figure D)) F : find (fun f => Nat.eqb (fg_num f) 1) l = Some F -> exists r, activate 1 l = F :: r.
  Proof. intros E. unfold activate. rewrite E. eauto. Qed.
  Lemma fig1_num s F : fig1 s F -> fg_num F = 1.
  Proof. intros E. apply find_some in E as [_ E]. now apply Nat.eqb_eq. Qed.
  Lemma shared_on s F p1 p2 f : fig1 s F ->
    let s' := execs false (NewFigure :: ([Subplot 1] ++ map Draw p1 ++ [Subplot 2]) ++ Figure 1 :: map Draw p2 ++ [Savefig f; Show]) s in
    file_content s' f = Some (fg_content F ++ in_axes (fg_axes F) p2) /\ fig1 s' (mkFigure 1 (fg_axes F) (fg_content F ++ in_axes (fg_axes F) p2)).
  Proof.
    intros HF. cbv zeta. change (NewFigure :: ([Subplot 1] ++ map Draw p1 ++ [Subplot 2]) ++ Figure 1 :: map Draw p2 ++ [Savefig f; Show])
      with ((NewFigure :: [Subplot 1] ++ map Draw p1 ++ [Subplot 2]) ++ [Figure 1] ++ map Draw p2 ++ [Savefig f; Show]).
    rewrite execs_app. assert (Ho : fig1 (execs false (NewFigure :: [Subplot 1] ++ map Draw p1 ++ [Subplot 2]) s) F).
    { apply own_new; [|assumption]. rewrite !forallb_app. cbn [forallb calm]. assert (E : forallb calm (map Draw p1) = true) by (clear; induction p1; [reflexivity|assumption]). now rewrite E. }
    set (t := execs false (NewFigure :: _) s) in *. clearbody t. rewrite execs_app.
    destruct (activate_fig1 _ _ Ho) as (r & Er). pose proof (fig1_num _ _ Ho) as Hn.
    assert (E1 : execs false [Figure 1] t = mkSession (F :: r) (files t)) by (cbn; now rewrite Er).
    rewrite E1, execs_app, execs_plain by apply plain_draw. rewrite ink_draw, axes_draw, Hn. split.
    - apply find_here.
    - reflexivity.
  Qed.
  Lemma profile_on s F cs f : fig1 s F -> forallb plain cs = true ->
    file_content (execs false (Figure 1 :: Subplot 2 :: cs ++ [Savefig f; Show]) s) f = Some (fg_content F ++ ink 2 cs).
  Proof.
    intros HF Hp. change (Figure 1 :: Subplot 2 :: cs ++ [Savefig f; Show]) with ([Figure 1] ++ (Subplot 2 :: cs) ++ [Savefig f; Show]). rewrite execs_app.
    destruct (activate_fig1 _ _ HF) as (r & Er).
    assert (E1 : execs false [Figure 1] s = mkSession (F :: r) (files s)) by (cbn; now rewrite Er).
    rewrite E1, execs_app, execs_plain by exact Hp. cbn [ink]. apply find_here.
  Qed.
  Lemma profile_alone (cs : list (command D)) f : forallb plain cs = true ->
    file_content (execs true (Figure 1 :: Subplot 2 :: cs ++ [Savefig f; Show]) empty_session) f = Some (ink 2 cs).
  Proof.
    intros Hp. change (Figure 1 :: Subplot 2 :: cs ++ [Savefig f; Show]) with ([Figure 1] ++ (Subplot 2 :: cs) ++ [Savefig f; Show]). rewrite execs_app.
    change (execs true [Figure 1] empty_session) with (mkSession [mkFigure 1 0 []] ([] : list (string * list (nat * D)))).
    rewrite execs_app, execs_plain by exact Hp. cbn [ink fg_content app]. apply find_here.
  Qed.
End Open.

Section Traces.
  Context {T : Type} `{Num T}.
  Variable interp1d : list T -> list T -> T -> res T.
  Variable interp1d_nan : list T -> list T -> T -> T.
  Variable argsort : list T -> list nat.
  Variable show_bounds : T * T -> string.

  Ltac st := repeat first
    [ apply still_draws; apply draws_curve | apply still_draws; apply draws_bars | apply still_draws; apply draws_limits
    | apply still_draws; apply draws_curves | apply still_draws; apply draws_levels
    | apply still_pseq | apply still_pfor; intros ? | apply still_pbind; intros ? | reflexivity ].

  Lemma theta_sal_own sal theta ms mt me index profiles p name title :
    own (fst (theta_sal_plot sal theta ms mt me index profiles p name title : prog (item T))).
  Proof.
    unfold theta_sal_plot. set (q := pbind _ _). rewrite fst_pseq by reflexivity. cbn [fst pdo app]. apply own_new.
    change (still q). unfold q. st. destruct a3; st.
  Qed.
  Lemma sal_anom_own sal ptmp nos p name title : completes (sal_anom_plot interp1d_nan argsort show_bounds sal ptmp nos p name title) ->
    own (fst (sal_anom_plot interp1d_nan argsort show_bounds sal ptmp nos p name title)).
  Proof.
    unfold sal_anom_plot. intros Hc. apply completes_pbind in Hc as (bz & E & Hc). rewrite E. cbn [pbind].
    rewrite fst_pfor by (now apply completes_pfor). apply own_flat. intros b _. rewrite fst_pseq by reflexivity. cbn [fst pdo app]. apply own_new.
    match goal with |- forallb calm (fst ?q) = true => change (still q) end. st. unfold contours. destruct (_ && _); st.
  Qed.
  Lemma sal_var_own levels nr nc mp a b c e pct s nos p name : completes (sal_var_plot interp1d levels nr nc mp a b c e pct s nos p name) ->
    own (fst (sal_var_plot interp1d levels nr nc mp a b c e pct s nos p name)).
  Proof.
    unfold sal_var_plot. intros Hc. apply completes_pbind in Hc as (rows & E & Hc). rewrite E. cbn [pbind].
    rewrite fst_pfor by (now apply completes_pfor). apply own_flat. intros ir _. cbv zeta. rewrite fst_pseq by reflexivity. cbn [fst pdo app]. apply own_new.
    match goal with |- forallb calm (fst ?q) = true => change (still q) end. st.
  Qed.

  Lemma trajectory_trace floats clim p name : completes (trajectory_plot floats clim p name : prog (item T)) ->
    exists d ds, fst (trajectory_plot floats clim p name) = map Draw (d :: ds) ++ [Savefig (plot_file p name "_trajectory")]
      /\ drawn (trajectory_plot floats clim p name) = d :: ds.
  Proof.
    unfold trajectory_plot. intros Hc.
    apply completes_pseq in Hc as [H1 Hc]. apply completes_pseq in Hc as [H2 Hc]. apply completes_pseq in Hc as [H3 Hc].
    apply completes_pseq in Hc as [H4 Hc]. apply completes_pseq in Hc as [H5 Hc].
    rewrite !fst_pseq, !drawn_pseq by assumption.
    set (q := pfor _ _) in *.
    assert (Hq : draws q).
    { apply draws_pfor. intros [i [[a b] c]]. destruct (noted _ _); [eexists [_]; reflexivity|exists []; reflexivity]. }
    rewrite (draws_drawn _ Hq), (draws_drawn _ (draws_limits _ _ _)), (draws_drawn _ (draws_limits false _ _)), (draws_drawn _ (draws_curve (map fst clim) _ _)).
    destruct (completes_curve _ _ _ H1) as [-> _].
    eexists _, _. split.
    2:{ cbn [drawn fst pdo flat_map app]. rewrite app_nil_r. reflexivity. }
    cbn [map app fst pdo]. rewrite !map_app, <- !app_assoc. reflexivity.
  Qed.

  Lemma cal_curve_trace sal cal cal_err sta m fa fe nos p name : completes (cal_sal_curve_plot sal cal cal_err sta m fa fe nos p name : prog (item T)) ->
    forallb (fun c => forallb nisnan c) cal = false ->
    exists p1 p2, length p1 = 6 /\ length p2 = 6 /\
      drawn (cal_sal_curve_plot sal cal cal_err sta m fa fe nos p name) = p1 ++ p2 /\
      fst (cal_sal_curve_plot sal cal cal_err sta m fa fe nos p name) =
        NewFigure :: ([Subplot 1] ++ map Draw p1 ++ [Subplot 2]) ++ Figure 1 :: map Draw p2 ++ [Savefig (plot_file p name "_salinity_curve"); Show].
  Proof.
    intros Hc Hf. revert Hc. unfold cal_sal_curve_plot. rewrite Hf. cbv zeta. intros Hc.
    assert (G : forall (a1 a2 a3 a4 : prog (item T)) (d1 d2 : item T),
      (exists d, a1 = pdo [Draw d]) -> (exists d, a2 = pdo [Draw d]) -> (exists d, a3 = pdo [Draw d]) -> (exists d, a4 = pdo [Draw d]) ->
      exists ds, length ds = 6 /\ pseq a1 (pseq (pdo [Draw d1]) (pseq a2 (pseq a3 (pseq (pdo [Draw d2]) a4)))) = pdo (map Draw ds)).
    { intros a1 a2 a3 a4 d1 d2 (e1 & ->) (e2 & ->) (e3 & ->) (e4 & ->). exists [e1; d1; e2; e3; d2; e4]. split; reflexivity. }
    apply completes_pseq in Hc as [_ Hc]. apply completes_pseq in Hc as [H1 Hc]. apply completes_pseq in Hc as [_ Hc]. apply completes_pseq in Hc as [H2 _].
    assert (Pc : forall xs ys l, completes (curve xs ys l : prog (item T)) -> exists d, curve xs ys l = pdo [Draw d]).
    { intros xs ys l Hx. destruct (completes_curve _ _ _ Hx) as [-> _]. eauto. }
    assert (Pb : forall h xs ys es, completes (bars h xs ys es : prog (item T)) -> exists d, bars h xs ys es = pdo [Draw d]).
    { intros h xs ys es Hx. rewrite (completes_bars _ _ _ _ Hx). eauto. }
    assert (Pl : forall h a b, completes (limits h a b : prog (item T)) -> exists d, limits h a b = pdo [Draw d]).
    { intros h a b Hx. destruct (completes_limits _ _ _ Hx) as [-> _]. eauto. }
    apply completes_pseq in H1 as [A1 H1]. apply completes_pseq in H1 as [_ H1]. apply completes_pseq in H1 as [A2 H1]. apply completes_pseq in H1 as [A3 H1].
    apply completes_pseq in H1 as [_ A4].
    apply completes_pseq in H2 as [B1 H2]. apply completes_pseq in H2 as [_ H2]. apply completes_pseq in H2 as [B2 H2]. apply completes_pseq in H2 as [B3 H2].
    apply completes_pseq in H2 as [_ B4].
    match goal with |- context [pseq (curve nos fa NoLabel) (pseq (pdo [Draw ?d1]) (pseq _ (pseq _ (pseq (pdo [Draw ?d2]) _))))] =>
      destruct (G _ _ _ _ d1 d2 (Pc _ _ _ A1) (Pb _ _ _ _ A2) (Pb _ _ _ _ A3) (Pl _ _ _ A4)) as (p1 & L1 & E1) end.
    match goal with |- context [pseq (curve nos (offsets cal sal) NoLabel) (pseq (pdo [Draw ?d1]) (pseq _ (pseq _ (pseq (pdo [Draw ?d2]) _))))] =>
      destruct (G _ _ _ _ d1 d2 (Pc _ _ _ B1) (Pb _ _ _ _ B2) (Pb _ _ _ _ B3) (Pl _ _ _ B4)) as (p2 & L2 & E2) end.
    rewrite E1, E2. exists p1, p2. split; [assumption|]. split; [assumption|].
    assert (Ed : forall l : list (item T), flat_map (fun c => match c with Draw d => [d] | _ => [] end) (map Draw l) = l).
    { induction l as [|d l IH]; [reflexivity|]. cbn. now rewrite IH. }
    rewrite !drawn_pseq, !fst_pseq by reflexivity. unfold drawn. cbn [fst pdo]. rewrite !Ed. cbn [flat_map app]. rewrite app_nil_r. split; [reflexivity|].
    rewrite <- !app_assoc. reflexivity.
  Qed.

  Lemma profile_trace sal ptmp pres v l tl pl p name : completes (t_s_profile_plot sal ptmp pres v l tl pl p name : prog (item T)) ->
    exists cs, forallb plain cs = true /\
      fst (t_s_profile_plot sal ptmp pres v l tl pl p name) = Figure 1 :: Subplot 2 :: cs ++ [Savefig (plot_file p name "_salinity_profile"); Show].
  Proof.
    unfold t_s_profile_plot. cbv zeta. intros Hc.
    repeat match goal with Hx : completes (pseq _ _) |- _ => apply completes_pseq in Hx as [? ?] end.
    rewrite !fst_pseq by assumption.
    assert (P : forall q : prog (item T), draws q -> forallb plain (fst q) = true) by (intros q (ds & ->); apply plain_draw).
    set (c1 := curves sal ptmp). set (c2 := curve v l NoLabel). set (c3 := curves ptmp _). set (c4 := curves sal _).
    exists (fst c1 ++ map (fun y => Draw (Level y)) tl ++ [Subplot 1] ++ fst c2 ++ map (fun y => Draw (Level y)) tl ++ [Subplot 3] ++ fst c3 ++
            map (fun y => Draw (Level y)) (map nopp pl) ++ [Subplot 4] ++ fst c4 ++ map (fun y => Draw (Level y)) (map nopp pl)).
    split.
    - assert (Hm : forall m : list T, forallb plain (map (fun y => Draw (Level y)) m) = true) by (induction m; [reflexivity|assumption]).
      rewrite !forallb_app, !Hm, !P; [reflexivity|apply draws_curves|apply draws_curves|apply draws_curve|apply draws_curves].
    - cbn [fst pdo]. rewrite <- !app_assoc. reflexivity.
  Qed.

  Section Dash.
    Variables (src : source T) (pos : positions T) (d : mapped T) (c : calfile T) (k : calib T) (levels : nat) (p : @plot_paths T) (name : string).
    Let dash := plot_diagnostics interp1d interp1d_nan argsort show_bounds src pos d c k levels p name.
    Let cal := cal_sal_curve_plot (src_sal src) (k_sal k) (k_sal_err k) (k_sta_sal k) (k_sta_mean k) (k_factor k) (k_factor_err k) (src_no src) p name.
    Hypothesis Hcal : forallb (fun c => forallb nisnan c) (k_sal k) = false.

    Lemma cal_file_closing : completes cal ->
      alone true cal (plot_file p name "_salinity_curve") = Some (in_axes 1 (firstn 6 (drawn cal)) ++ in_axes 2 (skipn 6 (drawn cal))).
    Proof.
      intros Hc. destruct (cal_curve_trace _ _ _ _ _ _ _ _ _ _ Hc Hcal) as (p1 & p2 & L1 & L2 & Ed & Ef).
      unfold alone, cal. rewrite Ef, Ed, <- L1, firstn_app, firstn_all, Nat.sub_diag, skipn_app, skipn_all, Nat.sub_diag. cbn [firstn skipn app]. rewrite app_nil_r.
      cbn [execs fold_left exec empty_session open_figures files new_figure max_num fold_right on_current fg_num fg_content].
      change (fold_left (exec true) ?cs ?s) with (execs true cs s). rewrite <- app_assoc, execs_app.
      rewrite execs_plain by apply plain_draw. cbn [fg_num fg_axes fg_content app]. rewrite ink_draw, axes_draw.
      cbn [execs fold_left exec open_figures files on_current fg_num fg_content activate find Nat.eqb filter negb].
      change (fold_left (exec true) ?cs ?s) with (execs true cs s).
      rewrite execs_app, execs_plain by apply plain_draw. cbn [fg_num fg_axes fg_content]. rewrite ink_draw. apply find_here.
    Qed.

    Lemma dash_open_files : completes dash -> exists floats theta_lt theta_gt pres_lt pres_gt percent th mats,
      float_rows (src_no src) (concat (ps_lat pos)) (map east_west (concat (ps_long pos))) = Ok floats /\
      find_10thetas interp1d (src_levels src) (length (src_sal src)) (of_cols (src_sal src)) (of_cols (src_ptmp src)) (of_cols (src_pres src))
           (of_cols (m_cols (la_ptmp d))) theta_lt theta_gt pres_lt pres_gt percent = Ok (th, mats) /\
      let traj := drawn (trajectory_plot floats (dash_clim d) p name) in
      let profile := t_s_profile_plot (src_sal src) (src_ptmp src) (src_pres src) (var_sal_theta th) (theta_levels th) (t_levels th) (p_levels th) p name in
      alone false dash (plot_file p name "_salinity_curve") = Some (in_axes 0 (traj ++ skipn 6 (drawn cal))) /\
      exists own, alone true profile (plot_file p name "_salinity_profile") = Some own /\
        alone false dash (plot_file p name "_salinity_profile") = Some (in_axes 0 (traj ++ skipn 6 (drawn cal)) ++ own).
    Proof.
      intros Hc. unfold dash in Hc.
      destruct (dashboard_plots interp1d interp1d_nan argsort show_bounds src pos d c k levels p name Hc)
        as (floats & tlt & tgt & plt & pgt & pct & th & mats & Ef & Eth & _ & _ & _ & _ & Ed & Hp).
      exists floats, tlt, tgt, plt, pgt, pct, th, mats. split; [exact Ef|]. split; [exact Eth|]. cbv zeta.
      unfold alone at 1 3, dash. rewrite Ed. rewrite fst_pfor by exact Hp.
      pose proof (Hp _ (or_introl eq_refl)) as C0. apply completes_pseq in C0 as [C0 _].
      pose proof (Hp _ (or_intror (or_intror (or_introl eq_refl)))) as C2.
      pose proof (Hp _ (or_intror (or_intror (or_intror (or_introl eq_refl))))) as C3.
      pose proof (Hp _ (or_intror (or_intror (or_intror (or_intror (or_intror (or_introl eq_refl))))))) as C5.
      pose proof (Hp _ (or_intror (or_intror (or_intror (or_intror (or_intror (or_intror (or_introl eq_refl)))))))) as C6.
      pose proof (Hp _ (or_intror (or_intror (or_intror (or_intror (or_intror (or_intror (or_intror (or_introl eq_refl))))))))) as C7.
      destruct (trajectory_trace _ _ _ _ C0) as (d0 & ds & Et & Edr). rewrite Edr.
      destruct (cal_curve_trace _ _ _ _ _ _ _ _ _ _ C3 Hcal) as (p1 & p2 & L1 & _ & Ecd & Ecf).
      destruct (profile_trace _ _ _ _ _ _ _ _ _ C7) as (cs & Hcs & Epf).
      unfold cal. rewrite Ecd, <- L1, skipn_app, skipn_all, Nat.sub_diag. cbn [skipn app].
      unfold dash_plots. cbn [flat_map]. rewrite fst_pseq by assumption. rewrite Et. cbn [fst pdo]. rewrite Ecf, Epf, app_nil_r.
      set (th1 := fst (dash_theta_sal _ _ _ _ _ _ "uncalibrated")). set (an1 := fst (sal_anom_plot _ _ _ (src_sal src) _ _ _ _ _)).
      set (th2 := fst (dash_theta_sal _ _ _ _ _ _ "calibrated")). set (an2 := fst (sal_anom_plot _ _ _ (k_sal k) _ _ _ _ _)).
      set (va := fst (sal_var_plot _ _ _ _ _ _ _ _ _ _ _ _ _ _)).
      rewrite !(execs_app false (_ ++ [Show])), !(execs_app false th1), !(execs_app false an1).
      rewrite !(execs_app false (_ ++ [Savefig _])), !(execs_app false (map Draw (d0 :: ds))), !execs_first_draw.
      set (s0 := execs false [Show] (execs false [Savefig (plot_file p name "_trajectory")] (mkSession [mkFigure 1 0 (in_axes 0 (d0 :: ds))] []))).
      assert (F0 : fig1 s0 (mkFigure 1 0 (in_axes 0 (d0 :: ds)))) by reflexivity.
      assert (F2 : fig1 (execs false an1 (execs false th1 s0)) (mkFigure 1 0 (in_axes 0 (d0 :: ds)))).
      { apply sal_anom_own; [exact C2|]. apply theta_sal_own. exact F0. }
      set (s2 := execs false an1 (execs false th1 s0)) in *. clearbody s2.
      destruct (shared_on s2 _ p1 p2 (plot_file p name "_salinity_curve") F2) as [A3 F3]. cbn [fg_axes fg_content] in A3, F3.
      rewrite !(execs_app false (NewFigure :: _)).
      set (s3 := execs false (NewFigure :: _) s2) in *. clearbody s3.
      assert (Eapp : in_axes 0 ((d0 :: ds) ++ p2) = in_axes 0 (d0 :: ds) ++ in_axes 0 p2) by (unfold in_axes; now rewrite map_app).
      change (d0 :: ds ++ p2) with ((d0 :: ds) ++ p2). rewrite Eapp.
      split.
      - rewrite unsaved; [exact A3|]. intros Hin.
        assert (Hs : saves (pdo (th2 ++ va ++ an2 ++ Figure 1 :: Subplot 2 :: cs ++ [Savefig (plot_file p name "_salinity_profile"); Show]) : prog (item T))
                       (fun g => g <> plot_file p name "_salinity_curve")).
        { intros g Hg ->. unfold saved_names in Hg. cbn [fst pdo] in Hg. rewrite !flat_map_app, !in_app_iff in Hg.
          destruct Hg as [Hg|[Hg|[Hg|Hg]]].
          - apply (theta_sal_saves _ _ _ _ _ _ _ _ _ _) in Hg. apply plot_file_inj in Hg. discriminate.
          - apply (sal_var_saves _ _ _ _ _ _ _ _ _ _ _ _ _ _) in Hg as (x & Hg). apply plot_file_inj in Hg. discriminate.
          - apply (sal_anom_saves _ _ _ _ _ _ _ _ _) in Hg as (x & Hg). apply plot_file_inj in Hg. discriminate.
          - rewrite <- Epf in Hg. apply (profile_saves _ _ _ _ _ _ _ _ _) in Hg. apply plot_file_inj in Hg. discriminate. }
        exact (Hs _ Hin eq_refl).
      - exists (ink 2 cs). split; [unfold alone; rewrite Epf; now apply profile_alone|].
        rewrite !execs_app. set (s4 := execs false an2 _).
        assert (F4 : fig1 s4 (mkFigure 1 0 (in_axes 0 (d0 :: ds) ++ in_axes 0 p2))).
        { unfold s4. apply sal_anom_own; [exact C6|]. apply sal_var_own; [exact C5|]. apply theta_sal_own. exact F3. }
        now rewrite (profile_on s4 _ cs _ F4 Hcs).
    Qed.
  End Dash.
End Traces.
