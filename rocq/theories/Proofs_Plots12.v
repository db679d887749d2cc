(* t_s_profile_plot; profiles with too few samples for the anomalies *)
From Coq Require Import String ZArith List Bool Reals Lia Lra Permutation.
From Verif Require Import Num Np NumFacts NpFacts Finders Spec_Finders Proofs_Finders Proofs_Besthist Calib Pyplot Plots Spec_Plots Spec_Plots2 Spec_Plots4
  Proofs_Plots1 Proofs_Plots5 Proofs_Plots6 Proofs_Plots7 Proofs_Plots8.
Import ListNotations.
Local Open Scope nat_scope.

Section Panels.
  Context {T : Type} {NT : Num T}.

  Lemma curves_done (xs ys : list (list T)) :
    (completes (curves xs ys) <-> same_levels xs ys) /\
    (completes (curves xs ys) -> fst (curves xs ys) = map Draw (profile_curves xs ys)).
  Proof.
    unfold curves, profile_curves, same_levels, completes. revert ys. induction xs as [|x xs IH]; intros ys.
    - cbn. split; [|reflexivity]. split; [|reflexivity]. intros _ [|k] a b; cbn; discriminate.
    - destruct ys as [|y ys].
      + cbn. split; [|reflexivity]. split; [|reflexivity]. intros _ k a b _ H. destruct k; discriminate.
      + destruct (IH ys) as (I1 & I2). cbn [combine pfor fold_right fst snd map] in *.
        fold (pfor (combine xs ys) (fun q => curve (fst q) (snd q) NoLabel)) in *.
        unfold curve at 1 3 5. unfold pseq. destruct (Nat.eqb_spec (length x) (length y)) as [E|E]; cbn [snd fst pdo praise].
        * split; [|intros H; cbn [app]; f_equal; apply I2, H]. rewrite I1. split.
          { intros H [|k] a b; cbn [nth_error]; [intros [= <-] [= <-]; exact E|apply H]. }
          { intros H k a b Ha Hb. exact (H (S k) a b Ha Hb). }
        * split; [|discriminate]. split; [discriminate|]. intros H. exfalso. apply E. exact (H 0 x y eq_refl eq_refl).
  Qed.

  Variables (sal ptmp pres : list (list T)) (v th tl pl : list T) (p : @plot_paths T) (name : string).
  Notation plot := (t_s_profile_plot sal ptmp pres v th tl pl p name).

  Lemma panels_complete : completes plot <->
    same_levels sal ptmp /\ length v = length th /\ same_levels ptmp (downward pres) /\ same_levels sal (downward pres).
  Proof.
    unfold t_s_profile_plot. cbv zeta. fold (downward pres).
    rewrite <- !(proj1 (curves_done _ _)).
    assert (C : completes (curve v th NoLabel : prog (item T)) <-> length v = length th).
    { unfold curve, completes. destruct (Nat.eqb_spec (length v) (length th)); cbn; [tauto|split; [discriminate|contradiction]]. }
    rewrite <- C. clear C.
    assert (S : forall a b : prog (item T), completes (pseq a b) <-> completes a /\ completes b).
    { intros a b. unfold pseq, completes. destruct (snd a) eqn:E; cbn [snd]; [rewrite E; split; [discriminate|intros [? _]; discriminate]|tauto]. }
    assert (D : forall cs, completes (pdo cs : prog (item T))) by reflexivity.
    rewrite !S. split.
    - intros H. repeat match goal with Hx : _ /\ _ |- _ => destruct Hx end. auto.
    - intros (A & B & E & F). repeat split; auto.
  Qed.

  Lemma panels_content closes : completes plot ->
    saved_names plot = [plot_file p name "_salinity_profile"] /\
    alone closes plot (plot_file p name "_salinity_profile") = Some (four_panels sal ptmp pres v th tl pl).
  Proof.
    intros Hc. assert (Hk := proj1 panels_complete Hc). destruct Hk as (A & B & E & F).
    apply (proj1 (curves_done _ _)) in A, E, F.
    assert (C : curve v th NoLabel = pdo [Draw (Curve v th NoLabel)]) by (unfold curve; rewrite B, Nat.eqb_refl; reflexivity).
    set (hl l := map (fun y : T => Draw (Level y)) l).
    assert (HL : forall l, hl l = map Draw (level_lines l)) by (intros l; unfold hl, level_lines; now rewrite map_map).
    assert (Tr : fst plot = Figure 1 :: Subplot 2 ::
      (map Draw (profile_curves sal ptmp ++ level_lines tl) ++ [Subplot 1] ++ map Draw (Curve v th NoLabel :: level_lines tl)
       ++ [Subplot 3] ++ map Draw (profile_curves ptmp (downward pres) ++ level_lines (map nopp pl))
       ++ [Subplot 4] ++ map Draw (profile_curves sal (downward pres) ++ level_lines (map nopp pl)))
      ++ [Savefig (plot_file p name "_salinity_profile"); Show]).
    { unfold t_s_profile_plot in *. cbv zeta in *. fold (downward pres) in *. rewrite C in *.
      fold (hl tl) in *. fold (hl (map nopp pl)) in *.
      rewrite !fst_pseq by (first [reflexivity | assumption]).
      rewrite (proj2 (curves_done sal ptmp) A), (proj2 (curves_done ptmp _) E), (proj2 (curves_done sal _) F).
      cbn [fst pdo]. rewrite !HL. cbn [map]. rewrite !map_app, <- !app_assoc. cbn [app]. repeat (cbn [app]; rewrite <- app_assoc). reflexivity. }
    split.
    - unfold saved_names. rewrite Tr.
      assert (Sd : forall l : list (item T), flat_map (fun c => match c with Savefig f => [f] | _ => [] end) (map Draw l) = []) by (induction l; auto).
      repeat (cbn [flat_map app] || rewrite flat_map_app || rewrite Sd). reflexivity.
    - unfold alone. rewrite Tr. set (body := (map Draw (profile_curves sal ptmp ++ level_lines tl) ++ _)).
      assert (Pb : forallb plain body = true).
      { unfold body. rewrite !forallb_app, !plain_draw. reflexivity. }
      assert (Ib : ink 2 body = four_panels sal ptmp pres v th tl pl).
      { unfold body, four_panels. cbn [app]. rewrite ink_app, ink_draw, axes_draw. cbn [ink]. f_equal.
        rewrite ink_app, ink_draw, axes_draw. cbn [ink]. f_equal. rewrite ink_app, ink_draw, axes_draw. cbn [ink]. f_equal. apply ink_draw. }
      clearbody body. change (Figure 1 :: Subplot 2 :: body ++ ?r) with ([Figure 1; Subplot 2] ++ body ++ r).
      rewrite execs_app. cbn [execs fold_left exec empty_session open_figures files activate find filter on_current fg_num fg_axes fg_content].
      change (fold_left (exec closes) ?cs ?s) with (execs closes cs s).
      rewrite execs_app, execs_plain by exact Pb. cbn [fg_num fg_axes fg_content app]. rewrite Ib.
      cbn [execs fold_left exec open_figures files on_current fg_content filter]. apply find_here.
  Qed.
End Panels.

Lemma in_pseq {D} (x : D) a b : In x (drawn (pseq a b)) -> In x (drawn a) \/ In x (drawn b).
Proof. unfold pseq, drawn. destruct (snd a); [auto|]. cbn [fst]. rewrite flat_map_app. apply in_app_or. Qed.
Lemma in_pfor {D A} (x : D) (l : list A) f : In x (drawn (pfor l f)) -> exists a, In x (drawn (f a)).
Proof.
  induction l as [|a l IH]; [intros []|]. change (pfor (a :: l) f) with (pseq (f a) (pfor l f)). intros I.
  apply in_pseq in I. destruct I as [I|I]; eauto.
Qed.

(* ---- anomalies of profiles with fewer than three complete samples ---- *)
Section Anomalies.
  Variable argsort : list XR -> list nat.
  Hypothesis Harg : forall l, Permutation (argsort l) (seq 0 (length l)).

  Notation both := (fun q : XR * XR => negb (nisnan (fst q)) && negb (nisnan (snd q))).
  Lemma drop_equal_le prev (l : list (XR * XR)) : length (filter both (drop_equal prev l)) <= length (filter both l).
  Proof.
    revert prev. induction l as [|b l IH]; intros prev; [auto|]. cbn [drop_equal].
    destruct (neqb (fst b) prev); cbn [filter].
    - specialize (IH prev). destruct (negb _ && negb _); cbn [length]; lia.
    - specialize (IH (fst b)). destruct (negb _ && negb _); cbn [length]; lia.
  Qed.
  Lemma first_of_equal_le (l : list (XR * XR)) : length (filter both (first_of_equal l)) <= length (filter both l).
  Proof.
    destruct l as [|a l]; [auto|]. cbn [first_of_equal filter]. pose proof (drop_equal_le (fst a) l) as H.
    destruct (negb _ && negb _); cbn [length]; lia.
  Qed.
  Lemma filter_perm_length {A} (f : A -> bool) l l' : Permutation l l' -> length (filter f l) = length (filter f l').
  Proof.
    induction 1; cbn [filter]; auto; [destruct (f x); cbn [length]; congruence|destruct (f x), (f y); auto|congruence].
  Qed.
  Lemma good_le t s : length t = length s -> length (good_pairs argsort (map oX t) (map oX s)) <= known_pairs t s.
  Proof.
    intros L. unfold good_pairs, known_pairs. cbv zeta. eapply Nat.le_trans; [apply first_of_equal_le|].
    set (pairs := combine (map oX t) (map oX s)).
    assert (P : Permutation (take (nnan, nnan) pairs (argsort (map oX t))) pairs).
    { unfold take. rewrite (Permutation_map _ (Harg (map oX t))).
      assert (Lp : length pairs = length (map oX t)) by (unfold pairs; rewrite combine_length, !map_length; lia).
      rewrite <- Lp. clear. induction pairs as [|a l IH]; [constructor|]. cbn [length seq map nth].
      constructor. rewrite <- seq_shift, map_map. exact IH. }
    rewrite (filter_perm_length _ _ _ P). unfold pairs. clear. revert s. induction t as [|a t IH]; intros s; [auto|].
    destruct s as [|b s]; [auto|]. cbn [map combine filter]. destruct a, b; cbn; auto using le_n_S.
  Qed.

  Lemma short_nan f base t s : length t = length s -> known_pairs t s < 3 ->
    interpolated f argsort base (map oX t) (map oX s) = map (fun _ => NaN) base.
  Proof.
    intros L H. unfold interpolated. cbv zeta. pose proof (good_le t s L). destruct (Nat.leb_spec 3 (length (good_pairs argsort (map oX t) (map oX s)))); [lia|reflexivity].
  Qed.

  Lemma anomaly_short f show ts ss nos p name title xs ys z j :
    let plot := sal_anom_plot f argsort show (map (map oX) ss) (map (map oX) ts) nos p name title in
    In (Contours xs ys z) (drawn plot) -> j < length ss ->
    length (nth j ts []) = length (nth j ss []) -> known_pairs (nth j ts []) (nth j ss []) < 3 ->
    Forall (fun x => x = NaN) (nth j z []).
  Proof.
    cbv zeta. intros I Hj L K. unfold sal_anom_plot in I.
    destruct theta_base as [base|e]; [|destruct I]. cbn [bind] in I.
    destruct (anomalies f argsort base (map (map oX) ss) (map (map oX) ts)) as [z0|e] eqn:Ez; [|destruct I]. cbn [bind pbind fst snd] in I.
    assert (Z : z = z0).
    { apply in_pfor in I. destruct I as (b & I). apply in_pseq in I. destruct I as [[]|I].
      apply in_pseq in I. destruct I as [I|I].
      - unfold contours in I. destruct (_ && _); [|destruct I]. destruct I as [E|[]]. congruence.
      - apply in_pseq in I. destruct I as [I|[]]. unfold limits in I. destruct (_ && _); [|destruct I]. destruct I as [E|[]]. discriminate. }
    subst z0. clear I. revert Ez. unfold anomalies. destruct (profile_range _) as [[a b]|e]; [|discriminate]. cbn [bind].
    intros [= <-]. rewrite map_length.
    rewrite (nth_map _ _ _ _ 0) by (rewrite seq_length; exact Hj). rewrite seq_nth by exact Hj. cbn [plus].
    assert (NN : forall l : list XR, Forall (fun x => x = NaN) (map (fun _ => NaN) l)) by (induction l; constructor; auto).
    destruct (Nat.leb a j && Nat.leb j b) eqn:E; [|apply NN].
    rewrite (nth_map _ _ _ _ 0) by (rewrite seq_length; exact Hj). rewrite seq_nth by exact Hj. cbn [plus]. rewrite E.
    assert (Q : forall l : list (list (option R)), nth j (map (map oX) l) [] = map oX (nth j l [])).
    { intros l. change (@nil XR) with (map oX []). apply map_nth. }
    rewrite !Q, short_nan by auto.
    set (med := map _ (seq 0 (length base))). clearbody med. revert med.
    induction base as [|x base IH]; intros med; [destruct med; constructor|]. destruct med as [|m med]; [constructor|].
    unfold Calib.map2 in *. cbn [map combine]. constructor; [reflexivity|apply IH].
  Qed.
End Anomalies.

(* two profiles of three levels *)
Definition panel_demo : prog (item XR) :=
  t_s_profile_plot [[Fin 34; Fin 35; NaN]; [Fin 34; Fin 35; Fin 36]] [[Fin 9; Fin 8; NaN]; [Fin 9; Fin 7; Fin 6]]
    [[Fin 10; Fin 20; NaN]; [Fin 10; Fin 20; Fin 30]] [Fin 1; Fin 2] [Fin 8; Fin 7] [Fin 8; Fin 7] [Fin 20; Fin 25] (mkPlotPaths (T := XR) "plots" "pdf" []) "f".
Lemma panel_demo_completes : completes panel_demo.
Proof. reflexivity. Qed.
