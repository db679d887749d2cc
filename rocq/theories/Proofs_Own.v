(* Which data of the float the mapping depends on *)
From Coq Require Import String Ascii.
From Coq Require Import ZArith List Bool Lia Permutation FunctionalExtensionality.
From Verif Require Import Num Np Utilities Finders Stats Wrangling Topo Fetchers Saf Helper MapProfile Mapping Spec_Mapping Spec_Own Proofs_Mapping Proofs_Mapping3.
Import Helper Mapping ListNotations.
Local Open Scope nat_scope.

Section Climatology.
  Context {T : Type} `{Num T}.
  Notation same_kind := (same_kind (T := T)).

  Lemma level_kind grid (x x' t p : T) : same_kind x x' -> interp_level grid (x', t, p) = interp_level grid (x, t, p).
  Proof. intros [_ E]. unfold interp_level, finite3. now rewrite E. Qed.

  Lemma clim_kind gs gt gp (a a' b c : list T) : Forall2 same_kind a a' ->
    interp_climatology gs gt gp (combine (combine a' b) c) = interp_climatology gs gt gp (combine (combine a b) c).
  Proof.
    intros F. unfold interp_climatology.
    assert (EM : forall (b c : list T), map (fun _ : T * T * T => repeat (nnan, nnan) (a_cols gs)) (combine (combine a' b) c)
            = map (fun _ => repeat (nnan (T := T), nnan (T := T)) (a_cols gs)) (combine (combine a b) c)).
    { clear b c. induction F as [|x x' a a' K F IH]; intros b c; [reflexivity|]. destruct b as [|y b], c as [|z c]; try reflexivity. cbn. now rewrite IH. }
    cbv zeta. rewrite EM. destruct (negb _); [reflexivity|]. destruct (cleaned_grid_data gs gt gp) as [[grid|]|e]; try reflexivity.
    cbn. clear EM. revert b c. induction F as [|x x' a a' K F IH]; intros b c; [reflexivity|]. destruct b as [|y b], c as [|z c]; try reflexivity.
    cbn [combine mapM]. rewrite (level_kind grid _ _ y z K), IH. reflexivity.
  Qed.

  Lemma mapM_row {A B} (f : A -> res B) l r : mapM f l = Ok r -> forall n d,
    match nth_error l n with Some x => f x = Ok (nth n r d) | None => nth n r d = d end.
  Proof.
    revert r. induction l as [|x l IH]; intros r E n d; cbn in E.
    - injection E as <-. now destruct n.
    - destruct (f x) as [y|] eqn:EX; [|discriminate]. cbn in E. destruct (mapM f l) as [ys|] eqn:EL; [|discriminate]. injection E as <-.
      destruct n as [|n]; [exact EX|]. exact (IH ys eq_refl n d).
  Qed.
  Lemma combine_error {A B} (l : list A) (l' : list B) n :
    nth_error (combine l l') n = match nth_error l n, nth_error l' n with Some x, Some y => Some (x, y) | _, _ => None end.
  Proof.
    revert l' n. induction l as [|x l IH]; intros l' n; [cbn; now destruct n|]. destruct l' as [|y l']; cbn [combine].
    - destruct n; cbn; [reflexivity|]. now destruct (nth_error l n).
    - destruct n; [reflexivity|]. cbn [nth_error]. apply IH.
  Qed.
  Lemma map_row {A B} (f : A -> B) l n d : nth n (map f l) d = match nth_error l n with Some x => f x | None => d end.
  Proof. revert n. induction l as [|x l IH]; intros [|n]; cbn; auto. Qed.

  Lemma clim_row gs gt gp (a a' b b' c : list T) r r' n : kind_at n a a' -> nth_error b' n = nth_error b n ->
    interp_climatology gs gt gp (combine (combine a b) c) = Ok r -> interp_climatology gs gt gp (combine (combine a' b') c) = Ok r' ->
    nth n r' [] = nth n r [].
  Proof.
    intros K EB E E'. unfold interp_climatology in E, E'. cbv zeta in E, E'.
    assert (NE : forall (x y : list T), nth_error (combine (combine x y) c) n =
        match nth_error x n, nth_error y n, nth_error c n with Some x, Some y, Some z => Some (x, y, z) | _, _, _ => None end).
    { intros x y. rewrite !combine_error. now destruct (nth_error x n), (nth_error y n), (nth_error c n). }
    unfold kind_at in K.
    destruct (negb _).
    - injection E as <-. injection E' as <-. rewrite !map_row, !NE, EB.
      destruct (nth_error a n), (nth_error a' n); try tauto; now destruct (nth_error b n), (nth_error c n).
    - destruct (cleaned_grid_data gs gt gp) as [[grid|]|e]; [| |discriminate]; cbn in E, E'.
      + assert (R := mapM_row _ _ _ E n []). assert (R' := mapM_row _ _ _ E' n []). rewrite NE in R, R'. rewrite EB in R'.
        destruct (nth_error a n) as [x|], (nth_error a' n) as [x'|]; try tauto; [|congruence].
        destruct (nth_error b n) as [y|], (nth_error c n) as [z|]; try congruence.
        rewrite (level_kind grid _ _ y z K) in R'. congruence.
      + injection E as <-. injection E' as <-. rewrite !map_row, !NE, EB.
        destruct (nth_error a n), (nth_error a' n); try tauto; now destruct (nth_error b n), (nth_error c n).
  Qed.
End Climatology.

Section Profile.
  Context {T : Type} `{Num T} `{NumT T} {rng : Type}.
  Variable seed : Z -> rng.
  Variable rand : rng -> nat -> list T * rng.
  Variable g0 : rng.
  Variable qs : list T -> list nat.
  Variable inv : nat -> (nat -> nat -> T) -> res (nat -> nat -> T).
  Variable np_interp : T -> list T -> list T -> T.
  Variable sa_from_sp : T -> T -> T -> T -> T.
  Variable ct_from_pt : T -> T -> T.
  Variable t_from_ct : T -> T -> T -> T.
  Variable interp2d : list T -> list T -> list (list Z) -> T -> T -> res T.
  Variable tbase : binfile.
  Variable read_mat : string -> res (ref_data T).
  Variable date_str : T -> list ascii.
  Variable cfg : map_config T.
  Variable float_name : string.
  Notation history := (best_history seed rand g0 qs np_interp sa_from_sp ct_from_pt t_from_ct interp2d tbase read_mat date_str cfg float_name).
  Notation levels_of := (profile_levels seed rand g0 qs inv np_interp sa_from_sp ct_from_pt t_from_ct interp2d tbase read_mat date_str cfg float_name).

  Definition frontless (fd : float_data T) : Prop := mc_use_saf cfg <> 1%Z \/ nltb (fd_lat fd) (nofZ (-30)) = false.

  Lemma history_own fd fd' z : frontless fd -> fd_lat fd' = fd_lat fd -> fd_long fd' = fd_long fd -> fd_date fd' = fd_date fd ->
    fd_pres fd' = fd_pres fd -> history fd' z = history fd z.
  Proof.
    intros F E1 E2 E3 E4. unfold best_history. rewrite E1, E2, E3, E4.
    destruct (find_25boxes _ _ _) as [w|]; [|reflexivity]. cbn.
    destruct (get_region_hist_locations _ _ _ _ _) as [[[la lo] da]|]; [|reflexivity]. cbn.
    destruct (grid_depths _ _ _ _) as [gz|]; [|reflexivity]. cbn.
    destruct (fst (find_besthist _ _ _ _ _ _ _ _ _ _ _ _ _ _ _ _ _ _ _)) as [ix|]; [|reflexivity]. cbn.
    destruct (get_region_data _ _ _ _ _ _ _) as [be|]; [|reflexivity]. cbn.
    destruct (index_array _ _ _) as [bz|]; [|reflexivity]. cbn.
    destruct (Z.eqb_spec (mc_use_saf cfg) 1) as [ES|_]; [|reflexivity].
    destruct F as [F|F]; [contradiction|]. unfold frontal_constraint_saf. cbn [fl_lat]. now rewrite F.
  Qed.

  Lemma data_in_lat (s : source T) i fd : get_float_data s i = Ok fd -> In (fd_lat fd) (src_lat s).
  Proof.
    unfold get_float_data. destruct (nth_error (src_lat s) i) as [la|] eqn:E; [|discriminate].
    destruct (nth_error (src_long s) i), (nth_error (src_dates s) i), (nth_error (src_sal s) i), (nth_error (src_tmp s) i), (nth_error (src_ptmp s) i), (nth_error (src_pres s) i); try discriminate.
    intros X. injection X as <-. cbn. exact (nth_error_In _ _ E).
  Qed.

  Lemma Forall2_error {A} (P : A -> A -> Prop) l l' : Forall2 P l l' -> forall n,
    match nth_error l n, nth_error l' n with Some x, Some y => P x y | None, None => True | _, _ => False end.
  Proof. induction 1 as [|x y l l' K F IH]; intros [|n]; cbn; auto. apply IH. Qed.

  Lemma error_none_length {A B} (l : list A) (l' : list B) n : length l = length l' ->
    match nth_error l n, nth_error l' n with Some _, Some _ => True | None, None => True | _, _ => False end.
  Proof.
    intros E. destruct (nth_error l n) eqn:E1, (nth_error l' n) eqn:E2; auto.
    - apply nth_error_None in E2. assert (n < length l) by (apply nth_error_Some; congruence). lia.
    - apply nth_error_None in E1. assert (n < length l') by (apply nth_error_Some; congruence). lia.
  Qed.

  (* the salinities are not used *)
  Theorem profile_own s s' i : no_front cfg s -> other_salinities s s' -> levels_of s' i = levels_of s i.
  Proof.
    intros NF (_ & E1 & E2 & E3 & E4 & E5 & _ & ET & ES). unfold profile_levels.
    destruct (get_float_data s i) as [fd|e] eqn:EF.
    - assert (FL : frontless fd). { destruct NF as [NF|NF]; [now left|right]. apply NF. exact (data_in_lat _ _ _ EF). }
      assert (X : exists sa tm, get_float_data s' i = Ok (mkFloatData (fd_lat fd) (fd_long fd) (fd_date fd) sa tm (fd_ptmp fd) (fd_pres fd)) /\ Forall2 same_kind (fd_sal fd) sa).
      { unfold get_float_data in EF |- *. rewrite E1, E2, E3, E4, E5. assert (FS := Forall2_error _ _ _ ES i). assert (FT := error_none_length _ _ i ET).
        destruct (nth_error (src_lat s) i), (nth_error (src_long s) i), (nth_error (src_dates s) i); try discriminate.
        destruct (nth_error (src_sal s) i), (nth_error (src_sal s') i); try discriminate; try tauto.
        destruct (nth_error (src_tmp s) i), (nth_error (src_tmp s') i); try discriminate; try tauto.
        destruct (nth_error (src_ptmp s) i), (nth_error (src_pres s) i); try discriminate. injection EF as <-. cbn. eauto. }
      destruct X as (sa & tm & -> & FK). set (fd' := mkFloatData _ _ _ _ _ _ _). cbn [bind].
      assert (EU : MapProfile.usable fd' = MapProfile.usable fd) by reflexivity. rewrite EU. destruct (MapProfile.usable fd); [|reflexivity].
      change (fd_long fd') with (fd_long fd). change (fd_lat fd') with (fd_lat fd). change (fd_date fd') with (fd_date fd).
      change (fd_ptmp fd') with (fd_ptmp fd). change (fd_pres fd') with (fd_pres fd). change (fd_sal fd') with sa.
      destruct (elevation _ _ _ _ _ _ _) as [el|]; [|reflexivity]. cbn [bind].
      rewrite (history_own fd fd') by (auto; reflexivity). destruct (history fd _) as [g|]; [|reflexivity]. cbn [bind].
      rewrite (clim_kind _ _ _ (fd_sal fd) sa) by exact FK. destruct (interp_climatology _ _ _ _) as [ip|]; [|reflexivity]. cbn [bind].
      f_equal. apply functional_extensionality. intros n. assert (FN := Forall2_error _ _ _ FK n).
      destruct (nth_error (fd_sal fd) n) as [x|], (nth_error sa n) as [y|]; try tauto. destruct FN as [EN _]. now rewrite EN.
    - assert (EF' : get_float_data s' i = Raise e).
      { unfold get_float_data in EF |- *. rewrite E1, E2, E3, E4, E5. assert (FS := Forall2_error _ _ _ ES i). assert (FT := error_none_length _ _ i ET).
        destruct (nth_error (src_lat s) i), (nth_error (src_long s) i), (nth_error (src_dates s) i); try exact EF.
        destruct (nth_error (src_sal s) i), (nth_error (src_sal s') i); try exact EF; try tauto.
        destruct (nth_error (src_tmp s) i), (nth_error (src_tmp s') i); try exact EF; try tauto.
        destruct (nth_error (src_ptmp s) i), (nth_error (src_pres s) i); try exact EF; discriminate. }
      now rewrite EF'.
  Qed.

  Theorem store_own s s' cwd paths float_dir st : no_front cfg s -> other_salinities s s' ->
    update_salinity_mapping qs levels_of cwd paths cfg s' float_dir float_name st
    = update_salinity_mapping qs levels_of cwd paths cfg s float_dir float_name st.
  Proof.
    intros NF OS. unfold update_salinity_mapping. assert (EQ : levels_of s' = levels_of s) by (apply functional_extensionality; intros i; exact (profile_own s s' i NF OS)).
    rewrite EQ. destruct OS as (-> & _ & _ & _ & _ & _ & -> & _). reflexivity.
  Qed.

  (* one level of one profile *)
  Theorem level_own s s' i n lev lev' : no_front cfg s -> same_station s s' i -> same_sample s s' i n ->
    levels_of s i = Ok lev -> levels_of s' i = Ok lev' -> lev' n = lev n.
  Proof.
    intros NF (E1 & E2 & E3 & E5) (E4 & EK) E E'. unfold profile_levels in E, E'.
    destruct (get_float_data s i) as [fd|] eqn:EF; [|discriminate]. destruct (get_float_data s' i) as [fd'|] eqn:EF'; [|discriminate]. cbn [bind] in E, E'.
    assert (FL : frontless fd). { destruct NF as [NF|NF]; [now left|right]. apply NF. exact (data_in_lat _ _ _ EF). }
    assert (X : fd_lat fd' = fd_lat fd /\ fd_long fd' = fd_long fd /\ fd_date fd' = fd_date fd /\ fd_pres fd' = fd_pres fd /\
                nth_error (fd_ptmp fd') n = nth_error (fd_ptmp fd) n /\ kind_at n (fd_sal fd) (fd_sal fd')).
    { unfold get_float_data in EF, EF'. rewrite E1, E2, E3, E5 in EF'.
      destruct (nth_error (src_lat s) i), (nth_error (src_long s) i), (nth_error (src_dates s) i); try discriminate.
      destruct (nth_error (src_sal s) i) as [a|] eqn:A, (nth_error (src_sal s') i) as [a'|] eqn:A'; try discriminate.
      destruct (nth_error (src_tmp s) i), (nth_error (src_tmp s') i); try discriminate.
      destruct (nth_error (src_ptmp s) i) as [b|] eqn:B, (nth_error (src_ptmp s') i) as [b'|] eqn:B'; try discriminate; destruct (nth_error (src_pres s) i); try discriminate.
      injection EF as <-. injection EF' as <-. cbn.
      rewrite (nth_error_nth _ _ [] B), (nth_error_nth _ _ [] B') in E4. rewrite (nth_error_nth _ _ [] A), (nth_error_nth _ _ [] A') in EK. auto 10. }
    destruct X as (X1 & X2 & X3 & X4 & X5 & X6).
    assert (EU : MapProfile.usable fd' = MapProfile.usable fd) by (unfold MapProfile.usable; now rewrite X1, X2, X4). rewrite EU in E'.
    destruct (MapProfile.usable fd); [|injection E as <-; injection E' as <-; reflexivity].
    rewrite X1, X2 in E'. destruct (elevation _ _ _ _ _ _ _) as [el|]; [|discriminate]. cbn [bind] in E, E'.
    rewrite (history_own fd fd') in E' by auto. destruct (history fd _) as [g|]; [|discriminate]. cbn [bind] in E, E'.
    rewrite X4 in E'.
    destruct (interp_climatology _ _ _ (combine (combine (fd_sal fd) _) _)) as [ip|] eqn:EI; [|discriminate].
    destruct (interp_climatology _ _ _ (combine (combine (fd_sal fd') _) _)) as [ip'|] eqn:EI'; [|discriminate]. cbn [bind] in E, E'.
    assert (ER := clim_row _ _ _ _ _ _ _ _ _ _ n X6 X5 EI EI').
    apply (f_equal (fun r => match r with Ok f => f n | Raise e => Raise e end)) in E, E'. cbn beta iota in E, E'. rewrite <- E, <- E'.
    unfold kind_at in X6. destruct (nth_error (fd_sal fd) n) as [x|], (nth_error (fd_sal fd') n) as [y|]; try tauto.
    destruct (nth_error (fd_pres fd) n) as [p|]; [|reflexivity]. destruct X6 as [X6 _]. rewrite <- X6. destruct (negb (nisnan x) && _)%bool; [|reflexivity].
    assert (EP : nth n (fd_ptmp fd') nnan = nth n (fd_ptmp fd) nnan).
    { destruct (nth_error (fd_ptmp fd) n) as [q|] eqn:EQ.
      - now rewrite (nth_error_nth _ _ nnan X5), (nth_error_nth _ _ nnan EQ).
      - rewrite !nth_overflow; auto; now apply nth_error_None. }
    now rewrite ER, EP, X3.
  Qed.
End Profile.
