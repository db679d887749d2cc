(* Runs over several series *)
From Coq Require Import String Ascii.
From Coq Require Import ZArith List Bool Lia.
From Verif Require Import Num Np NumFacts NpFacts Utilities Finders Stats FitCond Topo Helper MapProfile Mapping Config Calib Spec_Calib Proofs_Calib Proofs_Calib2.
Import ListNotations.
Local Open Scope num_scope.

Section Runs.
  Context {T : Type} {HN : Num T} {HT : NumT T}.
  Notation mat := (nat -> nat -> T).
  Variable det : nat -> mat -> T.
  Variable solve : nat -> nat -> mat -> mat -> res mat.
  Variable inv : nat -> mat -> res mat.
  Variable least_squares : (list T -> res (list T)) -> list T -> res (list (list T) * list T).
  Variable rng : Type.
  Variable randn : nat -> rng -> list T * rng.
  Variable interp1d : list T -> list T -> T -> res T.
  Variable interp2d : list T -> list T -> list (list Z) -> T -> T -> res T.
  Variable tbase : binfile.
  Variable c_from_sp : T -> T -> T -> T.
  Variable sp_from_c : T -> T -> T -> T.
  Notation series := (calibrate_series det solve inv least_squares rng randn interp1d c_from_sp sp_from_c).
  Notation all := (calibrate_all det solve inv least_squares rng randn interp1d c_from_sp sp_from_c).
  Notation whole := (piecewisefit det solve inv least_squares rng randn interp1d interp2d tbase c_from_sp sp_from_c).
  Notation applied := (apply_fit c_from_sp sp_from_c).
  Notation fit_cond := (fit_cond det solve inv least_squares rng randn).

  Lemma all_each cfg src coords d c percent mb us : forall i r g r' g',
    all cfg src coords d c percent mb i us r g = (Ok r', g') -> forall k v, nth_error us k = Some v ->
    exists r1 g1 r2 g2, series cfg src coords d c percent mb (i + k) v r1 g1 = (Ok r2, g2) /\
      all cfg src coords d c percent mb (S (i + k)) (skipn (S k) us) r2 g2 = (Ok r', g').
  Proof.
    induction us as [|u us IH]; intros i r g r' g' E k v Hk; [destruct k; discriminate|]. cbn [calibrate_all] in E.
    destruct (series cfg src coords d c percent mb i u r g) as [[r1|e] g1] eqn:E1; [|discriminate].
    destruct k.
    - injection Hk as ->. rewrite Nat.add_0_r. exists r, g, r1, g1. split; [exact E1|exact E].
    - destruct (IH _ _ _ _ _ E k v Hk) as (a & b & a' & b' & Q1 & Q2). exists a, b, a', b'.
      replace (i + S k)%nat with (S i + k)%nat by lia. split; [exact Q1|exact Q2].
  Qed.

  (* the rows of one profile *)
  Definition rows_of (r : calib T) (j : nat) : list T :=
    [entry1 (k_factor r) j; entry1 (k_factor_err r) j; entry1 (k_deriv r) j; entry1 (k_deriv_err r) j; entry1 (k_sta_mean r) j; entry1 (k_sta_rms r) j].
  Lemma series_frame cfg src coords d c percent mb i v r g r' g' j : cf_breaks c = [] ->
    series cfg src coords d c percent mb i v r g = (Ok r', g') -> ~ flagged (cf_calseries c) v j -> rows_of r' j = rows_of r j.
  Proof.
    intros HB E N. apply series_ok in E as (_ & E); [|exact HB].
    destruct E as [(_ & ->)|(sd & fi & m & f & r1 & _ & _ & _ & _ & ER & ->)]; [reflexivity|].
    apply record_fit_rows with (j := j) in ER. destruct ER as (Q1 & Q2 & Q3 & Q4 & Q5 & Q6); [rewrite calindex_spec; exact N|].
    unfold rows_of. cbn [apply_fit k_factor k_factor_err k_deriv k_deriv_err k_sta_mean k_sta_rms]. congruence.
  Qed.
  Lemma all_frame cfg src coords d c percent mb us : cf_breaks c = [] -> forall i r g r' g' j,
    all cfg src coords d c percent mb i us r g = (Ok r', g') -> (forall v, In v us -> ~ flagged (cf_calseries c) v j) -> rows_of r' j = rows_of r j.
  Proof.
    intros HB. induction us as [|u us IH]; intros i r g r' g' j E N; cbn [calibrate_all] in E.
    - injection E as <- _. reflexivity.
    - destruct (series cfg src coords d c percent mb i u r g) as [[r1|e] g1] eqn:E1; [|discriminate].
      transitivity (rows_of r1 j).
      + eapply IH; [exact E|]. intros v Hv. apply N. right. exact Hv.
      + eapply series_frame; [exact HB|exact E1|]. apply N. left. reflexivity.
  Qed.

  (* f is the fit of the profiles idx, at most m breaks *)
  Definition fit_of (cfg : cov_config T) (src : source T) (coords : option (list (coord T))) (d : mapped T) (c : calfile T) (percent m : T) (idx : list nat) (f : @fit T) : Prop :=
    exists sd fi g1 g2, select_series interp1d src coords d c percent idx = Ok sd /\ build_input c_from_sp cfg sd = Ok fi /\
      fit_cond (fi_x fi) (fi_y fi) (fi_err fi) (fi_cov fi) [FitCond.VStr "max_no_breaks"; VFlt m] g1 = (Ok (Fitted f), g2).

  (* the values saved for the p-th profile of a series *)
  Definition fit_values (idx : list nat) (f : @fit T) (p : nat) : list T :=
    map (fun l => nth p (put_values idx l) nnan) [f_condslope f; f_condslope_err f; f_time_deriv f; f_time_deriv_err f; f_sta_mean f; f_sta_rms f].

  Lemma record_fit_values idx f r r1 p : NoDup idx -> record_fit idx (Fitted f) r = Ok (r1, f) -> (p < length idx)%nat ->
    rows_of r1 (nth p idx 0%nat) = fit_values idx f p.
  Proof.
    intros ND E Hp. pose proof E as E0. apply record_fit_ok in E0 as (_ & _ & E1 & E2 & E3 & E4 & E5 & E6).
    cbn [record_fit] in E.
    apply bind_ok in E as (a1 & P1 & E). apply bind_ok in E as (a2 & P2 & E). apply bind_ok in E as (a3 & P3 & E).
    apply bind_ok in E as (a4 & P4 & E). apply bind_ok in E as (a5 & P5 & E). apply bind_ok in E as (a6 & P6 & _).
    apply put_ok in P1 as (_ & L1 & B1). apply put_ok in P2 as (_ & L2 & B2). apply put_ok in P3 as (_ & L3 & B3).
    apply put_ok in P4 as (_ & L4 & B4). apply put_ok in P5 as (_ & L5 & B5). apply put_ok in P6 as (_ & L6 & B6).
    unfold rows_of, fit_values, entry1. rewrite E1, E2, E3, E4, E5, E6. cbn [map].
    rewrite !(scatter_in idx) by assumption. reflexivity.
  Qed.

  (* what is saved for the series v is its fit, when no other flag equals one of its *)
  Theorem saved_fit cfg src pos d c g r g' v p : cf_breaks c = [] -> accepted c ->
    whole cfg src pos d (Ok c) g = (Ok r, g') ->
    In v (series_flags (cf_calseries c)) ->
    (forall u j, In u (series_flags (cf_calseries c)) -> u <> v -> flagged (cf_calseries c) v j -> ~ flagged (cf_calseries c) u j) ->
    NoDup (series_flags (cf_calseries c)) ->
    let idx := calindex_of (cf_calseries c) v in (p < length idx)%nat ->
    exists l per m f, float_coords interp2d tbase pos = Ok l /\ cf_percent c = Some [[per]] /\
      (forall k, nth_error (series_flags (cf_calseries c)) k = Some v ->
         max_of (fst (spread_max (length (series_flags (cf_calseries c))) (cf_max_breaks c))) k = Ok m) /\
      fit_of cfg src (Some l) d c per m idx f /\ (exists r0 r1, record_fit idx (Fitted f) r0 = Ok (r1, f)) /\
      rows_of r (nth p idx 0%nat) = fit_values idx f p.
  Proof.
    intros HB A E Hv Sep ND idx Hp. apply whole_ok in E as (coords & cf & per & EC & EP & EH & ok & EK & E). injection EC as <-. cbv zeta in *.
    rewrite HB in EK. injection EK as <-. apply spread_ok in A. rewrite A in E. cbn [andb] in E. destruct E as [(_ & E)|(C & _)]; [|discriminate].
    destruct (In_nth_error _ _ Hv) as (k & Hk).
    destruct (all_each _ _ _ _ _ _ _ _ _ _ _ _ _ E k v Hk) as (r1 & g1 & r2 & g2 & Q1 & Q2).
    apply series_ok in Q1 as (_ & Q1); [|exact HB]. fold idx in Q1.
    destruct Q1 as [(C & _)|(sd & fi & m & f & r3 & ES & EB & EM & EF & ER & ->)]; [rewrite C in Hp; cbn in Hp; lia|].
    destruct EH as [(_ & ->)|(_ & l & EL & ->)]; [unfold select_series in ES; discriminate|].
    exists l, per, m, f. split; [exact EL|]. split; [exact EP|]. split.
    { intros k' Hk'. assert (k' = k) as ->; [|exact EM]. apply (NoDup_nth_error (series_flags (cf_calseries c))); [exact ND| |congruence].
      apply nth_error_Some. congruence. }
    split; [exists sd, fi, g1, g2; auto|]. split; [exists r1, r3; exact ER|].
    rewrite <- (record_fit_values idx f r1 r3 p); [|apply calindex_NoDup|exact ER|exact Hp].
    transitivity (rows_of (applied src idx (f_coef f) (FitCond.f_breaks f) r3) (nth p idx 0%nat)); [|reflexivity].
    eapply all_frame; [exact HB|exact Q2|]. intros u Hu.
    apply Sep.
    - rewrite <- (firstn_skipn (S k) (series_flags (cf_calseries c))). apply in_app_iff. right. exact Hu.
    - intros ->. apply nth_error_split in Hk as (l1 & l2 & EQ & <-). rewrite EQ in Hu, ND.
      replace (S (length l1)) with (length (l1 ++ [v])) in Hu by (rewrite app_length; cbn; lia).
      replace (l1 ++ v :: l2)%list with ((l1 ++ [v]) ++ l2)%list in Hu by (rewrite <- app_assoc; reflexivity).
      rewrite skipn_app, skipn_all, Nat.sub_diag in Hu. cbn in Hu.
      apply NoDup_remove_2 in ND. apply ND. apply in_app_iff. right. exact Hu.
    - apply calindex_spec. apply nth_In. exact Hp.
  Qed.

  (* ---- series that cannot be fitted ---- *)
  Hypothesis nan_nan : nisnan (nnan : T) = true.
  Hypothesis nan_cond : nisfin (c_from_sp nnan nnan 0 / c_from_sp nnan nnan 0) = false.

  Lemma select_single src coords d c percent k sd : select_series interp1d src coords d c percent [k] = Ok sd ->
    length (sd_no sd) = 1%nat /\ valid_levels (sd_thetas sd) 0 = [].
  Proof.
    unfold select_series. intros E. do 12 (apply bind_ok in E as (? & _ & E)). apply bind_ok in E as ((th & ms) & Eth & E).
    apply bind_ok in E as (no & Eno & E). injection E as <-. cbn [sd_no sd_thetas]. apply index_array_ok in Eno as (-> & _).
    split; [reflexivity|]. exact (thetas_single nan_nan interp1d _ _ _ _ _ _ _ _ _ _ _ _ Eth).
  Qed.
  Lemma argwhere_from_none {A} (p : A -> bool) l k : (forall a, In a l -> p a = false) -> argwhere_from k p l = [].
  Proof.
    revert k. induction l as [|a l IH]; intros k N; [reflexivity|]. cbn [argwhere_from]. rewrite (N a) by (left; reflexivity).
    apply IH. intros b Hb. apply N. right. exact Hb.
  Qed.
  Lemma input_single cfg sd fi : length (sd_no sd) = 1%nat -> valid_levels (sd_thetas sd) 0 = [] -> build_input c_from_sp cfg sd = Ok fi ->
    good_points (fi_x fi) (fi_y fi) = [].
  Proof.
    intros L V E. unfold build_input in E. cbv zeta in E. apply bind_ok in E as (cov & _ & E). injection E as <-. cbn [fi_x fi_y].
    assert (ET : forall cols, ten sd cols = [repeat nnan 10]).
    { intros cols. unfold ten. rewrite L. cbn [seq map]. unfold ten_rows. rewrite V. reflexivity. }
    rewrite !ET. unfold good_points. apply argwhere_from_none. intros [x y] Hxy. cbn [fst snd].
    apply in_combine_r in Hxy. assert (EY : y = c_from_sp nnan nnan 0 / c_from_sp nnan nnan 0).
    { cbn [concat app repeat map2 combine map fst snd In] in Hxy. repeat (destruct Hxy as [<-|Hxy]; [reflexivity|]). destruct Hxy. }
    subst y. rewrite nan_cond. reflexivity.
  Qed.
  Lemma series_single cfg src coords d c percent mb i v r g r' g' k : calindex_of (cf_calseries c) v = [k] ->
    series cfg src coords d c percent mb i v r g <> (Ok r', g').
  Proof.
    intros EI E. unfold calibrate_series in E. rewrite EI in E. cbv zeta in E.
    destruct (select_series interp1d src coords d c percent [k]) as [sd|] eqn:ES; [|discriminate]. cbn [bind] in E.
    destruct (build_input c_from_sp cfg sd) as [fi|] eqn:EB; [|discriminate]. cbn [bind] in E.
    apply select_single in ES as (L & V). pose proof (input_single _ _ _ L V EB) as G.
    assert (NF : forall args h, fit_cond (fi_x fi) (fi_y fi) (fi_err fi) (fi_cov fi) args h = (Ok (NoData (np_unique (fi_x fi))), h)).
    { intros args h. unfold FitCond.fit_cond. rewrite G. reflexivity. }
    unfold fit_series in E. destruct (cf_breaks c) as [|b bs].
    - destruct (max_of mb i) as [m|]; [|discriminate]. rewrite NF in E. cbn [bind record_fit] in E.
      destruct (put [k] [nnan] (k_factor r)); discriminate.
    - match type of E with (let '(_, _) := match ?x with _ => _ end in _) = _ => destruct x as [[row args]|] end; [|discriminate].
      rewrite NF in E. cbn [bind record_fit_breaks] in E.
      destruct (put [k] [nnan] (k_factor r)); [|discriminate]. cbn [bind] in E. destruct (put_row [k] [nnan] (k_deriv r)); discriminate.
  Qed.

  Lemma series_breaks cfg src coords d c percent mb i v r g r' g' : cf_breaks c <> [] -> calindex_of (cf_calseries c) v <> [] ->
    series cfg src coords d c percent mb i v r g <> (Ok r', g').
  Proof.
    intros HB NE E. destruct (calindex_of (cf_calseries c) v) as [|k idx] eqn:EI; [congruence|].
    destruct idx as [|k' idx]; [exact (series_single _ _ _ _ _ _ _ _ _ _ _ _ _ k EI E)|].
    assert (NZ : forallb (fun i => Nat.eqb i 0) (k :: k' :: idx) = false).
    { pose proof (calindex_NoDup (cf_calseries c) v) as ND. rewrite EI in ND. inversion ND as [|? ? N1 _]; subst.
      cbn [forallb]. destruct k; [|reflexivity]. destruct k'; [exfalso; apply N1; left; reflexivity|reflexivity]. }
    unfold calibrate_series in E. rewrite EI in E. cbv zeta in E.
    destruct (select_series interp1d src coords d c percent (k :: k' :: idx)) as [sd|] eqn:ES; [|discriminate]. cbn [bind] in E.
    destruct (build_input c_from_sp cfg sd) as [fi|] eqn:EB; [|discriminate]. cbn [bind] in E.
    unfold fit_series in E. destruct (cf_breaks c) as [|b bs]; [congruence|].
    match type of E with (let '(_, _) := match ?x with _ => _ end in _) = _ => destruct x as [[row args]|] end; [|discriminate].
    assert (NR : forall vals l, put_row (k :: k' :: idx) vals l = Raise IndexError :> res (list T)).
    { intros vals l. unfold put_row. rewrite NZ. reflexivity. }
    destruct (fit_cond _ _ _ _ _ _) as [[out|] h]; [|discriminate]. cbn [bind] in E.
    destruct out as [xs|f].
    - cbn [record_fit_breaks] in E. destruct (put _ _ _); [|discriminate]. cbn [bind] in E. rewrite NR in E. discriminate.
    - destruct (finite_breaks row); [|discriminate]. cbn [record_fit_breaks] in E.
      destruct (put _ _ _); [|discriminate]. cbn [bind] in E. destruct (put _ _ _); [|discriminate]. cbn [bind] in E. rewrite NR in E. discriminate.
  Qed.

  (* an accepted run has every series fitted *)
  Lemma whole_series cfg src pos d c g r g' v : whole cfg src pos d (Ok c) g = (Ok r, g') -> In v (series_flags (cf_calseries c)) ->
    r = blank_calib src \/ exists coords per mb i r1 g1 r2 g2, series cfg src coords d c per mb i v r1 g1 = (Ok r2, g2).
  Proof.
    intros E Hv. apply whole_ok in E as (coords & cf & per & EC & EP & EH & ok & EK & E). injection EC as <-. cbv zeta in *.
    destruct E as [(_ & E)|(_ & -> & _)]; [right|left; reflexivity].
    destruct (In_nth_error _ _ Hv) as (k & Hk). destruct (all_each _ _ _ _ _ _ _ _ _ _ _ _ _ E k v Hk) as (r1 & g1 & r2 & g2 & Q1 & _).
    do 8 eexists. exact Q1.
  Qed.

  Theorem single_profile cfg src pos d c g r g' v k : cf_breaks c = [] -> accepted c -> In v (series_flags (cf_calseries c)) ->
    calindex_of (cf_calseries c) v = [k] -> whole cfg src pos d (Ok c) g <> (Ok r, g').
  Proof.
    intros HB A Hv EI E. apply whole_ok in E as (coords & cf & per & EC & EP & EH & ok & EK & E). injection EC as <-. cbv zeta in *.
    rewrite HB in EK. injection EK as <-. apply spread_ok in A. rewrite A in E. cbn [andb] in E. destruct E as [(_ & E)|(C & _)]; [|discriminate].
    destruct (In_nth_error _ _ Hv) as (q & Hq). destruct (all_each _ _ _ _ _ _ _ _ _ _ _ _ _ E q v Hq) as (r1 & g1 & r2 & g2 & Q1 & _).
    exact (series_single _ _ _ _ _ _ _ _ _ _ _ _ _ k EI Q1).
  Qed.

  (* given break points: nothing but a blank file *)
  Theorem given_breaks cfg src pos d c g r g' v : cf_breaks c <> [] -> In v (series_flags (cf_calseries c)) -> calindex_of (cf_calseries c) v <> [] ->
    whole cfg src pos d (Ok c) g = (Ok r, g') -> r = blank_calib src /\ g' = g.
  Proof.
    intros HB Hv NE E. apply whole_ok in E as (coords & cf & per & EC & EP & EH & ok & EK & E). injection EC as <-. cbv zeta in *.
    destruct E as [(_ & E)|(_ & -> & ->)]; [exfalso|auto].
    destruct (In_nth_error _ _ Hv) as (q & Hq). destruct (all_each _ _ _ _ _ _ _ _ _ _ _ _ _ E q v Hq) as (r1 & g1 & r2 & g2 & Q1 & _).
    exact (series_breaks _ _ _ _ _ _ _ _ _ _ _ _ _ HB NE Q1).
  Qed.
End Runs.
