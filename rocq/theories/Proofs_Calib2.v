(* The fit of a series: what it depends on, and the failures *)
From Coq Require Import String Ascii.
From Coq Require Import ZArith List Bool Lia.
From Verif Require Import Num Np NumFacts NpFacts Utilities Finders Stats FitCond Topo Helper MapProfile Mapping Config Calib Spec_Calib Proofs_Calib.
Import ListNotations.
Local Open Scope num_scope.

Section Fit.
  Context {T : Type} {HN : Num T} {HT : NumT T}.
  Notation mat := (nat -> nat -> T).
  Variable det : nat -> mat -> T.
  Variable solve : nat -> nat -> mat -> mat -> res mat.
  Variable inv : nat -> mat -> res mat.
  Variable least_squares : (list T -> res (list T)) -> list T -> res (list (list T) * list T).
  Variable rng : Type.
  Variable randn : nat -> rng -> list T * rng.
  Notation fit_cond := (fit_cond det solve inv least_squares rng randn).
  Notation evaluate := (evaluate det solve inv least_squares rng randn).

  (* everything of a fit but the error of the slope *)
  Definition apart_from_err (f : @fit T) := (f_xfit f, f_condslope f, f_time_deriv f, f_time_deriv_err f, f_sta_mean f, f_sta_rms f, f_ndf f, f_coef f, FitCond.f_breaks f).

  Lemma evaluate_rng p o nbr1 t best g1 g2 f1 f2 g1' g2' :
    evaluate p o nbr1 t best g1 = (Ok f1, g1') -> evaluate p o nbr1 t best g2 = (Ok f2, g2') -> apart_from_err f1 = apart_from_err f2.
  Proof.
    unfold FitCond.evaluate. cbv zeta. destruct (param_var _ _ _ _) as [[p1 p2]|e]; [|discriminate].
    match goal with |- (let '(_, _) := ?x in _) = _ -> _ => destruct x as [[e1|x1] h1] end; [|discriminate].
    match goal with |- _ -> (let '(_, _) := ?x in _) = _ -> _ => destruct x as [[e2|x2] h2] end; [|discriminate].
    intros E1 E2. apply (f_equal fst) in E1. apply (f_equal fst) in E2. cbn [fst] in E1, E2.
    apply (f_equal (fun r => match r with Ok x => apart_from_err x | Raise _ => apart_from_err f1 end)) in E1.
    apply (f_equal (fun r => match r with Ok x => apart_from_err x | Raise _ => apart_from_err f1 end)) in E2.
    cbv beta iota in E1, E2. rewrite <- E1, <- E2. reflexivity.
  Qed.

  (* the generator only affects the error of the slope *)
  Lemma fit_rng x y e lv args g1 g2 f1 f2 g1' g2' :
    fit_cond x y e lv args g1 = (Ok (Fitted f1), g1') -> fit_cond x y e lv args g2 = (Ok (Fitted f2), g2') -> apart_from_err f1 = apart_from_err f2.
  Proof.
    unfold FitCond.fit_cond. destruct (good_points x y); [discriminate|].
    match goal with |- (match ?x with _ => _ end = _) -> _ => destruct x as [[[[o nbr1] t2] best]|e0] end; [|discriminate].
    destruct (evaluate _ _ _ _ _ g1) as [[a1|] h1] eqn:E1; [|discriminate].
    destruct (evaluate _ _ _ _ _ g2) as [[a2|] h2] eqn:E2; [|discriminate].
    intros Q1 Q2. injection Q1 as -> _. injection Q2 as -> _. exact (evaluate_rng _ _ _ _ _ _ _ _ _ _ _ E1 E2).
  Qed.

  (* one value per distinct position *)
  Lemma evaluate_length p o nbr1 t best g f g' : evaluate p o nbr1 t best g = (Ok f, g') ->
    f_xfit f = map (fun v => v * x_scale p + x_0 p) (xfit p) /\
    length (f_condslope f) = length (xfit p) /\ length (f_sta_mean f) = length (xfit p).
  Proof.
    unfold FitCond.evaluate. cbv zeta. destruct (param_var _ _ _ _) as [[p1 p2]|e]; [|discriminate].
    match goal with |- (let '(_, _) := ?x in _) = _ -> _ => destruct x as [[e1|x1] h1] end; [|discriminate].
    intros E. apply (f_equal fst) in E. cbn [fst] in E.
    pose proof (f_equal (fun r => match r with Ok x => f_xfit x | Raise _ => [] end) E) as E1.
    pose proof (f_equal (fun r => match r with Ok x => f_condslope x | Raise _ => [] end) E) as E2.
    pose proof (f_equal (fun r => match r with Ok x => f_sta_mean x | Raise _ => [] end) E) as E3.
    clear E. cbn [f_xfit f_condslope f_sta_mean] in E1, E2, E3. rewrite <- E1, <- E2, <- E3. split; [reflexivity|].
    rewrite !map_length. unfold tab. rewrite map_length, seq_length. auto.
  Qed.
  Lemma fit_length x y e lv args g f g' : fit_cond x y e lv args g = (Ok (Fitted f), g') ->
    f_xfit f = map (fun v => v * x_scale (prepare x y e lv) + x_0 (prepare x y e lv)) (xfit (prepare x y e lv)) /\
    length (f_condslope f) = length (np_unique x) /\ length (f_sta_mean f) = length (np_unique x).
  Proof.
    unfold FitCond.fit_cond. destruct (good_points x y); [discriminate|].
    match goal with |- (match ?x with _ => _ end = _) -> _ => destruct x as [[[[o nbr1] t2] best]|e0] end; [|discriminate].
    destruct (evaluate _ _ _ _ _ g) as [[a1|] h1] eqn:E1; [|discriminate]. intros Q. injection Q as -> _.
    apply evaluate_length in E1 as (A & B & C). split; [exact A|].
    assert (L : length (xfit (prepare x y e lv)) = length (np_unique x)) by (unfold prepare; cbn [xfit]; apply map_length).
    rewrite <- L. auto.
  Qed.
  Lemma fit_good x y e lv args g f g' : fit_cond x y e lv args g = (Ok (Fitted f), g') -> good_points x y <> [].
  Proof. unfold FitCond.fit_cond. intros E C. rewrite C in E. discriminate. Qed.
End Fit.

Lemma Forall2_imp {A B} (P Q : A -> B -> Prop) l m : (forall a b, P a b -> Q a b) -> Forall2 P l m -> Forall2 Q l m.
Proof. intros H. induction 1; constructor; auto. Qed.

(* ---- a series of one profile has no levels ---- *)
Section Single.
  Context {T : Type} {HN : Num T} {HT : NumT T}.
  Hypothesis nan_nan : nisnan (nnan : T) = true.
  Variable interp1d : list T -> list T -> T -> res T.

  Lemma all_nan_min k var : forallb nisnan var = true -> select_min k var = repeat None k.
  Proof. intros N. induction k; [reflexivity|]. cbn [select_min repeat]. rewrite N. now rewrite IHk. Qed.
  Lemma set_nan var i : forallb nisnan var = true -> forallb nisnan (set_nth i (nnan : T) var) = true.
  Proof.
    revert i. induction var as [|v var IH]; intros i N; [destruct i; reflexivity|]. cbn [forallb] in N. apply andb_true_iff in N as (N1 & N2).
    destruct i; cbn [set_nth forallb]; [rewrite nan_nan, N2; reflexivity|rewrite N1, IH; auto].
  Qed.
  Lemma blank_rare_single pc rows : (forall r, In r rows -> (length r <= 1)%nat) -> forallb nisnan (blank_rare pc rows) = true.
  Proof.
    intros L. unfold blank_rare.
    assert (N : forallb nisnan (map (fun r => var1 (drop_nan r)) rows) = true).
    { apply forallb_forall. intros v Hv. apply in_map_iff in Hv as (r & <- & Hr). unfold var1.
      assert (LL : (length (drop_nan r) <= 1)%nat).
      { specialize (L r Hr). destruct r as [|a [|b r]]; [cbn; lia| |cbn [length] in L; lia]. unfold drop_nan. cbn [filter]. destruct (negb _); cbn; lia. }
      apply Nat.leb_le in LL. rewrite LL. exact nan_nan. }
    revert N. generalize (map (fun r => var1 (drop_nan r)) rows). generalize (argwhere (fun p => p <? pc) (map (fun g => if negb (nanmax (map (fun r => nofZ (Z.of_nat (length (drop_nan r)))) rows) =? 0) then g / nanmax (map (fun r => nofZ (Z.of_nat (length (drop_nan r)))) rows) else nnan) (map (fun r => nofZ (Z.of_nat (length (drop_nan r)))) rows))).
    intros bad. induction bad as [|i bad IH]; intros var N; [exact N|]. cbn [fold_left]. apply IH. apply set_nan, set_nan, N.
  Qed.

  Lemma thetas_single nr sal ptmp pres la a b c e pc th ms :
    find_10thetas interp1d nr 1 sal ptmp pres la a b c e pc = Ok (th, ms) -> valid_levels th 0 = [].
  Proof.
    unfold find_10thetas. destruct (exclude la a b c e (pres, sal, ptmp)) as [[pr sa] pt]. intros E.
    apply bind_ok in E as (levels & _ & E). apply bind_ok in E as (it & _ & E). cbv zeta in E. apply bind_ok in E as (st & ES & E).
    assert (L : forall r, In r st -> (length r <= 1)%nat).
    { intros r Hr. pose proof (proj1 (mapM_ok _ _ _) ES) as F.
      apply (In_nth _ _ []) in Hr as (k & Hk & <-).
      assert (Q : forall l bs, Forall2 (fun (ti : T * list (option nat)) (r : list T) => (length (snd ti) <= 1)%nat -> (length r <= 1)%nat) l bs ->
                 (forall ti, In ti l -> (length (snd ti) <= 1)%nat) -> forall r, In r bs -> (length r <= 1)%nat).
      { clear. induction 1 as [|ti r l bs H F IH]; intros HL q Hq; [destruct Hq|]. destruct Hq as [<-|Hq]; [apply H, HL; left; reflexivity|].
        apply IH; [intros t Ht; apply HL; right; exact Ht|exact Hq]. }
      eapply Q; [| |apply nth_In; exact Hk].
      - eapply Forall2_imp; [|exact F]. intros ti row H HL. cbv beta in H. apply mapM_length in H. rewrite H, combine_length. lia.
      - intros ti Hti. destruct ti as [x row]. apply in_combine_r in Hti. apply in_map_iff in Hti as (th0 & <- & _). reflexivity. }
    pose proof (blank_rare_single pc st L) as N. rewrite (all_nan_min 10 _ N) in E.
    apply (f_equal (fun r => match r with Ok x => th_index (fst x) | _ => [] end)) in E. cbn [fst th_index] in E.
    unfold valid_levels. rewrite <- E. reflexivity.
  Qed.
End Single.
