(* All that is saved of a fit for a profile belongs to one position of the fit *)
From Coq Require Import String Ascii.
From Coq Require Import ZArith List Bool Lia Reals Lra Sorted Permutation.
From Verif Require Import Num Np NumFacts NpFacts Utilities Finders Stats FitCond Topo Helper MapProfile Mapping Config Calib Spec_FitCond Proofs_Utilities Proofs_FC1 Proofs_FC3
  Spec_Calib Proofs_Calib Proofs_Calib2 Proofs_Calib3 Proofs_Calib4 Proofs_Calib6 Proofs_Calib8.
Import ListNotations.
Local Open Scope num_scope.

Lemma sorter_len (a b : list XR) : length (sorter a b) = length b.
Proof. rewrite sorter_spec, map_length. apply Permutation_length, np_sort_perm. Qed.

Section Fit.
  Notation mat := (nat -> nat -> XR).
  Variable det : nat -> mat -> XR.
  Variable solve : nat -> nat -> mat -> mat -> res mat.
  Variable inv : nat -> mat -> res mat.
  Variable least_squares : (list XR -> res (list XR)) -> list XR -> res (list (list XR) * list XR).
  Variable rng : Type.
  Variable randn : nat -> rng -> list XR * rng.
  Notation fit_cond := (fit_cond det solve inv least_squares rng randn).
  Notation evaluate := (evaluate det solve inv least_squares rng randn).

  Lemma mc_length k p o nbr1 best breaks e : forall yfit err ug g err' g',
    mc_loop det solve least_squares rng randn k p o nbr1 best breaks e yfit err ug g = (Ok err', g') ->
    length err = length yfit -> length err' = length yfit.
  Proof.
    induction k as [|k IH]; intros yfit err ug g err' g' E L; cbn [mc_loop] in E.
    - injection E as <- _. exact L.
    - destruct (randn _ g) as [z g1]. destruct (bind _ _) as [a|x]; [|discriminate].
      apply IH in E; [exact E|]. rewrite map_length, seq_length. reflexivity.
  Qed.

  (* the six arrays of a fit *)
  Definition arrays_of (f : @fit XR) : list (list XR) :=
    [f_condslope f; f_condslope_err f; f_time_deriv f; f_time_deriv_err f; f_sta_mean f; f_sta_rms f].
  Lemma evaluate_lengths p o nbr1 t best g f g' : evaluate p o nbr1 t best g = (Ok f, g') ->
    forall l, In l (arrays_of f) -> length l = length (f_xfit f).
  Proof.
    unfold FitCond.evaluate. cbv zeta. destruct (param_var _ _ _ _) as [[p1 p2]|e]; [|discriminate].
    match goal with |- (let '(_, _) := ?x in _) = _ -> _ => destruct x as [[e1|x1] h1] eqn:EE end; [|discriminate].
    assert (L1 : length e1 = length (xfit p)).
    { destruct (Nat.eqb best 1).
      - injection EE as <- _. apply map_length.
      - destruct (o_nloops o) as [| |z|]; try discriminate.
        match type of EE with match ?x with _ => _ end = _ => destruct x as [[e2|] h2] eqn:EM end; [|discriminate].
        destruct (Z.eqb z 0); [discriminate|]. injection EE as <- _. apply mc_length in EM; [|rewrite map_length; reflexivity].
        rewrite map_length, combine_length, EM. unfold tab. rewrite !map_length, !seq_length. lia. }
    clear EE. intros E. apply (f_equal fst) in E. cbn [fst] in E. 
    apply (f_equal (fun r => match r with Ok x => x | Raise _ => f end)) in E. cbv beta iota in E.
    rewrite <- E. unfold arrays_of. cbn [ f_xfit f_condslope f_condslope_err f_time_deriv f_time_deriv_err f_sta_mean f_sta_rms].
    clear E. intros l Hl. rewrite (map_length _ (xfit p)).
    destruct Hl as [<-|[<-|[<-|[<-|[<-|[<-|[]]]]]]].
    - unfold tab. rewrite ?map_length, seq_length. reflexivity.
    - rewrite map_length. exact L1.
    - destruct (Nat.eqb best 1); [|destruct (Nat.eqb best 2)]; rewrite ?map_length, ?sorter_len, ?map_length; reflexivity.
    - destruct (Nat.eqb best 1); [|destruct (Nat.eqb best 2)]; rewrite ?map_length, ?sorter_len, ?map_length; reflexivity.
    - rewrite ?map_length. reflexivity.
    - rewrite ?map_length. reflexivity.
  Qed.
  Lemma fit_lengths x y e lv args g f g' : fit_cond x y e lv args g = (Ok (Fitted f), g') ->
    forall l, In l (arrays_of f) -> length l = length (f_xfit f).
  Proof.
    unfold FitCond.fit_cond. destruct (good_points x y); [discriminate|].
    match goal with |- (match ?x with _ => _ end = _) -> _ => destruct x as [[[[o nbr1] t2] best]|e0] end; [|discriminate].
    destruct (evaluate _ _ _ _ _ g) as [[a1|] h1] eqn:E1; [|discriminate]. intros Q. injection Q as -> _.
    exact (evaluate_lengths _ _ _ _ _ _ _ _ E1).
  Qed.

  Variable interp1d : list XR -> list XR -> XR -> res XR.
  Variable interp2d : list XR -> list XR -> list (list Z) -> XR -> XR -> res XR.
  Variable tbase : binfile.
  Variable c_from_sp : XR -> XR -> XR -> XR.
  Variable sp_from_c : XR -> XR -> XR -> XR.
  Notation whole := (piecewisefit det solve inv least_squares rng randn interp1d interp2d tbase c_from_sp sp_from_c).
  Notation fit_of := (fit_of det solve inv least_squares rng randn interp1d c_from_sp).
  Local Open Scope R_scope.

  Theorem c94_all cfg src pos d c flags nos v idx us g r g' :
    cf_breaks c = [] -> cf_calseries c = map Fin flags -> right_rows flags (cf_max_breaks c) -> src_no src = map Fin nos -> v <> 0 ->
    lists_series flags v idx -> NoDup (numbers_of nos idx) -> distinct_of (numbers_of nos idx) us ->
    whole cfg src pos d (Ok c) g = (Ok r, g') ->
    forall p, (p < length idx)%nat -> exists l per m f, float_coords interp2d tbase pos = Ok l /\
      fit_of cfg src (Some l) d c per m idx f /\ fit_saved f (Fin (nth p us 0)) r (nth p idx 0%nat).
  Proof.
    intros HB HF A HNo NZ LS ND D E p Hp. apply (right_accepted c flags HF) in A.
    destruct (saved_fin det solve inv least_squares rng randn interp1d interp2d tbase c_from_sp sp_from_c cfg src pos d c flags v idx p g r g' HB A HF NZ LS Hp E)
      as (_ & l & per & m & f & EL & EP & _ & FO & _ & RV).
    exists l, per, m, f. split; [exact EL|]. split; [exact FO|].
    pose proof (fit_of_numbers det solve inv least_squares rng randn interp1d c_from_sp cfg src _ d c per m idx f nos us HNo D FO) as (EX & _).
    pose proof (distinct_length _ _ D ND) as LU. unfold numbers_of in LU. rewrite map_length in LU.
    destruct FO as (sd & fi & g1 & g2 & _ & _ & EF).
    assert (LA : forall a, In a (arrays_of f) -> length a = length idx).
    { intros a Ha. rewrite (fit_lengths _ _ _ _ _ _ _ _ EF a Ha), EX, map_length. exact LU. }
    exists p. split.
    - rewrite EX, nth_error_map, (nth_error_nth' us 0); [reflexivity|lia].
    - assert (G : forall a, In a (arrays_of f) -> nth_error a p = Some (nth p (put_values idx a) NaN)).
      { intros a Ha. unfold put_values. rewrite (LA a Ha), Nat.eqb_refl. apply nth_error_nth'. rewrite (LA a Ha). exact Hp. }
      unfold rows_of, fit_values in RV. cbn [map] in RV. injection RV as V1 V2 V3 V4 V5 V6.
      rewrite V1, V2, V3, V4, V5, V6. repeat split; apply G; cbn; tauto.
  Qed.
End Fit.
