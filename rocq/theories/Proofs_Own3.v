(* Marking samples as missing *)
From Coq Require Import String Ascii.
From Coq Require Import ZArith List Bool Lia Permutation.
From Verif Require Import Num Np Utilities Finders Stats Wrangling Topo Fetchers Saf Helper MapProfile Mapping Spec_Mapping Spec_Own Proofs_Own.
Import Helper Mapping ListNotations.
Local Open Scope nat_scope.

Section Climatology.
  Context {T : Type} `{Num T}.
  Lemma mapM_ok {A B} (f : A -> res B) l : (forall x, In x l -> exists y, f x = Ok y) -> exists r, mapM f l = Ok r.
  Proof.
    induction l as [|x l IH]; intros HL; [now exists []|]. destruct (HL x (or_introl eq_refl)) as (y & EY).
    destruct IH as (r & ER); [intros z Hz; apply HL; now right|]. exists (y :: r). cbn. now rewrite EY, ER.
  Qed.
  Lemma clim_marked gs gt gp (a a' b b' c : list T) r : marked a b a' b' ->
    interp_climatology gs gt gp (combine (combine a b) c) = Ok r ->
    exists r', interp_climatology gs gt gp (combine (combine a' b') c) = Ok r'.
  Proof.
    intros (LA & LB & HM) E. unfold interp_climatology in *. cbv zeta in *. destruct (negb _); [eauto|].
    destruct (cleaned_grid_data gs gt gp) as [[grid|]|e]; [| |discriminate]; cbn in *; [|eauto].
    apply mapM_ok. intros q Hq. apply In_nth_error in Hq as (n & Hq). rewrite !combine_error in Hq.
    destruct (nth_error a' n) as [y|] eqn:EY; [|discriminate]. destruct (nth_error b' n) as [t|] eqn:ET; [|discriminate].
    destruct (nth_error c n) as [p|] eqn:EP; [|discriminate]. injection Hq as <-.
    assert (EX : exists x, nth_error a n = Some x).
    { destruct (nth_error a n) eqn:EX; [eauto|]. apply nth_error_None in EX. assert (n < length a') by (apply nth_error_Some; congruence). lia. }
    destruct EX as (x & EX). destruct (HM n x y EX EY) as [[-> EB]|[_ EF]].
    - assert (R := mapM_row _ _ _ E n []). rewrite !combine_error, EX, <- EB, ET, EP in R. eauto.
    - unfold interp_level, finite3. rewrite EF. cbn. eauto.
  Qed.
End Climatology.

Section Profile.
  Context {T : Type} `{Num T} `{NumT T} {rng : Type}.
  Variable seed : Z -> rng.
  Variable rand : rng -> nat -> list T * rng.
  Variable g0 : rng.
  Variable qs : list T -> list nat.
  Variable inv : nat -> (nat -> nat -> T) -> res (nat -> nat -> T).
  Variable np_interp : T -> list T -> list T -> T.
  Variable sa_from_sp : T -> T -> T -> T -> T.
  Variable ct_from_pt : T -> T -> T.
  Variable t_from_ct : T -> T -> T -> T.
  Variable interp2d : list T -> list T -> list (list Z) -> T -> T -> res T.
  Variable tbase : binfile.
  Variable read_mat : string -> res (ref_data T).
  Variable date_str : T -> list ascii.
  Variable cfg : map_config T.
  Variable float_name : string.
  Notation history := (best_history seed rand g0 qs np_interp sa_from_sp ct_from_pt t_from_ct interp2d tbase read_mat date_str cfg float_name).
  Notation levels_of := (profile_levels seed rand g0 qs inv np_interp sa_from_sp ct_from_pt t_from_ct interp2d tbase read_mat date_str cfg float_name).

  Theorem profile_marked s s' i lev : no_front cfg s -> marked_source s s' i -> levels_of s i = Ok lev ->
    exists lev', levels_of s' i = Ok lev' /\
      forall n x y, nth_error (nth i (src_sal s) []) n = Some x -> nth_error (nth i (src_sal s') []) n = Some y ->
        (missing y -> n < length (nth i (src_pres s) []) -> lev' n = Ok None) /\ (~ missing y -> lev' n = lev n).
  Proof.
    intros NF (ST & LS & LT & LP & MK) E. assert (ST' := ST). destruct ST' as (E1 & E2 & E3 & E5). assert (MK' := MK). destruct MK' as (LA & LB & HM).
    assert (X : exists lev', levels_of s' i = Ok lev' /\ forall n y, nth_error (nth i (src_sal s') []) n = Some y -> missing y -> n < length (nth i (src_pres s) []) -> lev' n = Ok None).
    { unfold profile_levels in E |- *. destruct (get_float_data s i) as [fd|] eqn:EF; [|discriminate]. cbn [bind] in E.
      assert (FL : frontless cfg fd). { destruct NF as [NF|NF]; [now left|right]. apply NF. exact (data_in_lat _ _ _ EF). }
      assert (X : exists fd', get_float_data s' i = Ok fd' /\ fd_lat fd' = fd_lat fd /\ fd_long fd' = fd_long fd /\ fd_date fd' = fd_date fd /\ fd_pres fd' = fd_pres fd /\
                marked (fd_sal fd) (fd_ptmp fd) (fd_sal fd') (fd_ptmp fd') /\ fd_sal fd' = nth i (src_sal s') [] /\ fd_pres fd = nth i (src_pres s) []).
      { unfold get_float_data in EF |- *. rewrite E1, E2, E3, E5. assert (FS := error_none_length _ _ i LS). assert (FT := error_none_length _ _ i LT). assert (FP := error_none_length _ _ i LP).
        destruct (nth_error (src_lat s) i), (nth_error (src_long s) i), (nth_error (src_dates s) i); try discriminate.
        destruct (nth_error (src_sal s) i) as [a|] eqn:A, (nth_error (src_sal s') i) as [a'|] eqn:A'; try discriminate; try tauto.
        destruct (nth_error (src_tmp s) i), (nth_error (src_tmp s') i); try discriminate; try tauto.
        destruct (nth_error (src_ptmp s) i) as [b|] eqn:B, (nth_error (src_ptmp s') i) as [b'|] eqn:B'; try discriminate; try tauto; destruct (nth_error (src_pres s) i) as [p|] eqn:P; try discriminate.
        injection EF as <-. cbn [fd_lat fd_long fd_date fd_pres fd_sal fd_ptmp].
        rewrite (nth_error_nth _ _ [] A), (nth_error_nth _ _ [] A'), (nth_error_nth _ _ [] B), (nth_error_nth _ _ [] B') in MK.
        rewrite (nth_error_nth _ _ [] A'), (nth_error_nth _ _ [] P). eexists. split; [reflexivity|]. cbn. auto 10. }
      destruct X as (fd' & EF' & X1 & X2 & X3 & X4 & X5 & X6 & X7). rewrite EF'. cbn [bind].
      assert (EU : MapProfile.usable fd' = MapProfile.usable fd) by (unfold MapProfile.usable; now rewrite X1, X2, X4). rewrite EU.
      destruct (MapProfile.usable fd); [|eexists; split; [reflexivity|reflexivity]].
      rewrite X1, X2. destruct (elevation _ _ _ _ _ _ _) as [el|]; [|discriminate]. cbn [bind] in E |- *.
      rewrite (history_own seed rand g0 qs np_interp sa_from_sp ct_from_pt t_from_ct interp2d tbase read_mat date_str cfg float_name fd fd') by auto. destruct (history fd _) as [g|]; [|discriminate]. cbn [bind] in E |- *. rewrite X4.
      destruct (interp_climatology _ _ _ (combine (combine (fd_sal fd) _) _)) as [ip|] eqn:EI; [|discriminate].
      destruct (clim_marked _ _ _ _ _ _ _ _ _ X5 EI) as (ip' & EI'). rewrite EI'. cbn [bind]. eexists. split; [reflexivity|].
      intros n y EY [MY _] HN. cbv beta. rewrite X6, EY. destruct (nth_error (fd_pres fd) n) as [p|] eqn:EP; [|apply nth_error_None in EP; rewrite X7 in EP; lia].
      now rewrite MY. }
    destruct X as (lev' & E' & HN). exists lev'. split; [exact E'|]. intros n x y EX EY. split; [exact (HN n y EY)|]. intros NM.
    destruct (HM n x y EX EY) as [[-> EB]|MY]; [|contradiction].
    refine (level_own _ _ _ _ _ _ _ _ _ _ _ _ _ _ _ s s' i n lev lev' NF ST _ E E'). split; [exact EB|]. unfold kind_at. rewrite EX, EY. now split.
  Qed.
End Profile.
