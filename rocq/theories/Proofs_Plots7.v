(* Contents of single files; trajectory_plot and cal_sal_curve_plot *)
From Coq Require Import String ZArith List Bool Reals Lia Lra.
From Verif Require Import Num Np NumFacts NpFacts Finders Spec_Finders Proofs_Finders Proofs_Besthist Proofs_Thetas Proofs_Thetas2 Config Calib Pyplot Plots Spec_Plots Spec_Plots2
  Proofs_Plots1 Proofs_Plots5 Proofs_Plots6.
Import ListNotations.
Local Open Scope nat_scope.

Section Ink.
  Context {D : Type}.
  Variable closes : bool.
  Definition plain (c : command D) : bool := match c with Subplot _ | Draw _ => true | _ => false end.
  Fixpoint ink (ax : nat) (cs : list (command D)) : list (nat * D) :=
    match cs with
    | [] => []
    | Subplot k :: cs => ink k cs
    | Draw d :: cs => (ax, d) :: ink ax cs
    | _ :: cs => ink ax cs
    end.
  Fixpoint axes (ax : nat) (cs : list (command D)) : nat :=
    match cs with [] => ax | Subplot k :: cs => axes k cs | _ :: cs => axes ax cs end.

  Lemma execs_plain cs : forall f r fs, forallb plain cs = true ->
    execs closes cs (mkSession (f :: r) fs) = mkSession (mkFigure (fg_num f) (axes (fg_axes f) cs) (fg_content f ++ ink (fg_axes f) cs) :: r) fs.
  Proof.
    induction cs as [|c cs IH]; intros f r fs Hp.
    - cbn. rewrite app_nil_r. now destruct f.
    - cbn [forallb] in Hp. apply andb_true_iff in Hp as [Hc Hp]. cbn [execs fold_left].
      destruct c; try discriminate Hc; cbn [exec on_current open_figures files ink axes];
        (match goal with |- fold_left _ _ ?s = _ => change (fold_left (exec closes) cs s) with (execs closes cs s) end;
         rewrite IH by assumption; cbn [fg_num fg_axes fg_content]; rewrite <- ?app_assoc; reflexivity).
  Qed.
  Lemma ink_app cs ds ax : ink ax (cs ++ ds) = ink ax cs ++ ink (axes ax cs) ds.
  Proof. revert ax. induction cs as [|c cs IH]; intros ax; [reflexivity|]. destruct c; cbn [app ink axes]; rewrite IH; reflexivity. Qed.
  Lemma axes_app cs ds ax : axes ax (cs ++ ds) = axes (axes ax cs) ds.
  Proof. revert ax. induction cs as [|c cs IH]; intros ax; [reflexivity|]. destruct c; cbn [app axes]; apply IH. Qed.
  Lemma ink_draw ds ax : ink ax (map Draw ds) = in_axes ax ds.
  Proof. induction ds as [|d ds IH]; [reflexivity|]. cbn. now rewrite IH. Qed.
  Lemma axes_draw ds ax : axes ax (map Draw ds) = ax.
  Proof. induction ds as [|d ds IH]; [reflexivity|]. exact IH. Qed.
  Lemma plain_draw ds : forallb plain (map Draw ds) = true.
  Proof. induction ds as [|d ds IH]; [reflexivity|]. exact IH. Qed.

  Lemma find_here f (c : list (nat * D)) l : option_map snd (find (fun e => String.eqb (fst e) f) ((f, c) :: l)) = Some c.
  Proof. cbn. now rewrite String.eqb_refl. Qed.
End Ink.

(* programs made of drawing calls only *)
Section Drawing.
  Context {D : Type}.
  Definition draws (p : prog D) : Prop := exists ds, fst p = map Draw ds.
  Lemma draws_pseq p q : draws p -> draws q -> draws (pseq p q).
  Proof.
    intros (a & Ea) (b & Eb). unfold pseq. destruct (snd p); [exists a; assumption|]. exists (a ++ b). cbn [fst]. now rewrite Ea, Eb, map_app.
  Qed.
  Lemma draws_drawn p : draws p -> fst p = map Draw (drawn p).
  Proof.
    intros (ds & E). unfold drawn. rewrite E. f_equal. clear E. induction ds as [|d ds IH]; [reflexivity|]. cbn. now rewrite <- IH.
  Qed.
  Lemma draws_pfor {A} (l : list A) (g : A -> prog D) : (forall a, draws (g a)) -> draws (pfor l g).
  Proof. intros Hg. induction l as [|a l IH]; [exists []; reflexivity|]. cbn [pfor fold_right]. now apply draws_pseq. Qed.
  Lemma draws_pbind {A} (r : res A) (g : A -> prog D) : (forall a, draws (g a)) -> draws (pbind r g).
  Proof. intros Hg. destruct r; [apply Hg|exists []; reflexivity]. Qed.
End Drawing.

Section DrawingCalls.
  Context {T : Type} `{Num T}.
  Lemma draws_curve xs ys l : draws (@curve T xs ys l).
  Proof. unfold curve. destruct (Nat.eqb _ _); [exists [Curve xs ys l]|exists []]; reflexivity. Qed.
  Lemma draws_bars h xs ys es : draws (@bars T h xs ys es).
  Proof. unfold bars. destruct (_ && _); [exists [Bars h xs ys es]|exists []]; reflexivity. Qed.
  Lemma draws_limits h a b : draws (limits h a b).
  Proof. unfold limits. destruct (_ && _); [exists [Limits h a b]|exists []]; reflexivity. Qed.
  Lemma draws_curves xs ys : draws (@curves T xs ys).
  Proof. apply draws_pfor. intros q. apply draws_curve. Qed.
  Lemma draws_levels (l : list T) : draws (pdo (map (fun y => Draw (Level y)) l)).
  Proof. exists (map Level l). cbn. now rewrite map_map. Qed.
End DrawingCalls.

(* ---- cal_sal_curve_plot ---- *)
Section Curve.
  Lemma known_somes l : known_values l = somes l.
  Proof. induction l as [|[x|] l IH]; cbn; [reflexivity| |exact IH]. f_equal. exact IH. Qed.
  Lemma nanmean_oX l : nanmean (oXs l) = oX (average l).
  Proof.
    unfold nanmean, oXs, average. rewrite known_somes. rewrite drop_nan_oX. destruct (somes l) as [|x r]; [reflexivity|].
    cbn [map]. change (Fin x :: map Fin r) with (map Fin (x :: r)). rewrite mean_fin by discriminate. reflexivity.
  Qed.
  Lemma differences_oX a b : map2 nsub (oXs a) (oXs b) = oXs (differences a b).
  Proof.
    unfold oXs, differences. revert b. induction a as [|x a IH]; intros [|y b]; try reflexivity.
    cbn [map combine]. rewrite <- IH. destruct x, y; reflexivity.
  Qed.
  Lemma offsets_oX a b : offsets (map oXs a) (map oXs b) = oXs (map (fun q => average (differences (fst q) (snd q))) (combine a b)).
  Proof.
    unfold offsets. revert b. induction a as [|x a IH]; intros [|y b]; try reflexivity.
    cbn [map combine fst snd oXs]. fold (oXs x) (oXs y). rewrite differences_oX, nanmean_oX. f_equal. apply IH.
  Qed.
  Lemma known_oX nos singles :
    known (map Fin nos) (oXs singles) =
    map (fun q => (Fin (fst q), oX (snd q))) (filter (fun q => match snd q with Some _ => true | None => false end) (combine nos singles)).
  Proof.
    unfold known, oXs. revert singles. induction nos as [|n nos IH]; intros [|s singles]; try reflexivity.
    cbn [map combine filter fst snd]. rewrite IH. destruct s; reflexivity.
  Qed.

  Variables (sal cal cal_err sta : list (list (option R))) (sta_mean factor factor_err : list (option R)) (nos : list R) (lo hi : R)
    (p : @plot_paths XR) (name : string).
  Let n := length nos.
  Hypothesis Hlo : least nos lo.
  Hypothesis Hhi : greatest nos hi.
  Hypothesis Hcal : exists c x, In c cal /\ In (Some x) c.

  Let avg := map (fun q => average (differences (fst q) (snd q))) (combine cal sal).
  Let avg_err := map average cal_err.
  Let single := map (fun q => average (differences (fst q) (snd q))) (combine sta sal).
  Hypothesis L1 : length factor = n. Hypothesis L2 : length factor_err = n.
  Hypothesis L4 : length avg = n. Hypothesis L5 : length avg_err = n.
  Let plot := cal_sal_curve_plot (map oXs sal) (map oXs cal) (map oXs cal_err) (map oXs sta) (oXs sta_mean) (oXs factor) (oXs factor_err) (map Fin nos) p name.

  Lemma min_nos : nanmin (map Fin nos) = Fin lo.
  Proof.
    replace (map Fin nos) with (map oX (map Some nos)) by (rewrite map_map; reflexivity).
    destruct (nanmin_oX (map Some nos)) as [[E _]|(m & -> & Hm & Hl)].
    - destruct Hlo as [Hin _]. exfalso. assert (In lo (somes (map Some nos))) by (apply in_somes, in_map; assumption). rewrite E in H. destruct H.
    - f_equal. apply in_map_iff in Hm as (y & Ey & Hy). injection Ey as <-. destruct Hlo as [Hin Hle]. apply Rle_antisym; [apply Hl; now apply in_map|now apply Hle].
  Qed.
  Lemma max_nos : nanmax (map Fin nos) = Fin hi.
  Proof.
    replace (map Fin nos) with (map oX (map Some nos)) by (rewrite map_map; reflexivity).
    destruct (nanmax_oX (map Some nos)) as [[E _]|(m & -> & Hm & Hl)].
    - destruct Hhi as [Hin _]. exfalso. assert (In hi (somes (map Some nos))) by (apply in_somes, in_map; assumption). rewrite E in H. destruct H.
    - f_equal. apply in_map_iff in Hm as (y & Ey & Hy). injection Ey as <-. destruct Hhi as [Hin Hle]. apply Rle_antisym; [now apply Hle|apply Hl; now apply in_map].
  Qed.

  Lemma cal_sal_trace : plot =
    pdo ([NewFigure; Subplot 1] ++ map Draw (panel nos lo hi factor factor_err sta_mean 1) ++ [Subplot 2; Figure 1]
         ++ map Draw (panel nos lo hi avg avg_err single 0) ++ [Savefig (plot_file p name "_salinity_curve"); Show]).
  Proof.
    unfold plot, cal_sal_curve_plot.
    assert (Ef : forallb (fun c => forallb nisnan c) (map oXs cal) = false).
    { destruct Hcal as (c & x & Hc & Hx). destruct (forallb _ (map oXs cal)) eqn:E; [|reflexivity]. rewrite forallb_forall in E.
      specialize (E (oXs c) (in_map oXs _ _ Hc)). rewrite forallb_forall in E. specialize (E (Fin x)). 
      assert (In (Fin x) (oXs c)) by (unfold oXs; apply in_map_iff; exists (Some x); auto). specialize (E H). discriminate. }
    rewrite Ef. cbv zeta. rewrite !offsets_oX, !known_oX, min_nos, max_nos. fold avg single.
    assert (Ee : map nanmean (map oXs cal_err) = oXs avg_err).
    { unfold avg_err, oXs at 2. rewrite !map_map. apply map_ext. intros l. apply nanmean_oX. }
    rewrite Ee.
    assert (E2 : forall l, map (fun e => nmul (nofZ 2) e) (oXs l) = oXs (map (option_map (fun e => (2 * e)%R)) l)).
    { intros l. unfold oXs. rewrite !map_map. apply map_ext. intros [e|]; reflexivity. }
    rewrite !E2.
    assert (Hc : forall l, length l = n -> curve (map Fin nos) (oXs l) NoLabel = pdo [Draw (Curve (map Fin nos) (oXs l) NoLabel)]).
    { intros l Hl. unfold curve, oXs. now rewrite !map_length, Hl, Nat.eqb_refl. }
    assert (Hb : forall l e, length l = n -> length e = n -> bars false (map Fin nos) (oXs l) (oXs e) = pdo [Draw (Bars false (map Fin nos) (oXs l) (oXs e))]).
    { intros l e Hl He. unfold bars, oXs. now rewrite !map_length, Hl, He, Nat.eqb_refl. }
    rewrite (Hc factor), (Hc avg) by assumption.
    rewrite (Hb factor factor_err), (Hb avg avg_err) by assumption.
    rewrite (Hb factor (map _ factor_err)), (Hb avg (map _ avg_err)) by (rewrite ?map_length; assumption).
    change (limits true (Fin lo) (Fin hi)) with (pdo [Draw (Limits true (Fin lo) (Fin hi))] : prog (item XR)).
    unfold pseq, pdo, panel. cbn [fst snd]. rewrite !map_map. reflexivity.
  Qed.

  Lemma cal_sal_file : completes plot /\
    alone true plot (plot_file p name "_salinity_curve") =
      Some (in_axes 1 (panel nos lo hi factor factor_err sta_mean 1) ++ in_axes 2 (panel nos lo hi avg avg_err single 0)).
  Proof.
    rewrite cal_sal_trace. split; [reflexivity|]. unfold alone. cbn [fst pdo].
    set (p1 := panel nos lo hi factor factor_err sta_mean 1). set (p2 := panel nos lo hi avg avg_err single 0). clearbody p1 p2.
    assert (S1 : execs true [NewFigure; Subplot 1] empty_session = mkSession [mkFigure 1 1 []] ([] : list (string * list (nat * item XR)))) by reflexivity.
    rewrite execs_app, S1. rewrite execs_app, execs_plain by apply plain_draw. cbn [fg_num fg_axes fg_content app]. rewrite ink_draw, axes_draw.
    assert (S2 : forall c, execs true [Subplot 2; Figure 1] (mkSession [mkFigure 1 1 c] ([] : list (string * list (nat * item XR)))) = mkSession [mkFigure 1 2 c] []) by reflexivity.
    change (Subplot 2 :: Figure 1 :: map Draw p2 ++ [Savefig (plot_file p name "_salinity_curve"); Show])
      with ([Subplot 2; Figure 1] ++ map Draw p2 ++ [Savefig (plot_file p name "_salinity_curve"); Show]).
    rewrite execs_app, S2. rewrite execs_app, execs_plain by apply plain_draw. cbn [fg_num fg_axes fg_content]. rewrite ink_draw.
    apply find_here.
  Qed.
End Curve.
