(* sal_var_plot: the values on the levels *)
From Coq Require Import String ZArith List Bool Reals Lia Lra FunctionalExtensionality.
From Verif Require Import Num Np NumFacts NpFacts Finders Spec_Finders Proofs_Finders Proofs_Thetas Proofs_Thetas2 Pyplot Plots Spec_Plots Proofs_Plots2.
Import ListNotations.
Local Open Scope R_scope.

Lemma sal_at_split (interp1d : list XR -> list XR -> XR -> res XR) nr sal ptmp th j ti :
  sal_at interp1d nr sal ptmp th j ti = let* k := k_index nr ptmp th j ti in on_level interp1d ptmp sal sal th j ti k.
Proof.
  unfold sal_at, k_index, on_level. cbv zeta.
  match goal with |- bind ?a _ = _ => destruct a as [l|e]; cbn [bind]; [|reflexivity] end.
  destruct l as [|k [|k' l]]; reflexivity.
Qed.

Section Index.
  Variables (nr : nat) (m : nat -> nat -> option R) (th : R) (j ti : nat) (x : R).
  Hypothesis Hti : (ti < nr)%nat.
  Hypothesis Hx : m ti j = Some x.
  Lemma k_index_cases :
    ((forall k y, ~ farM m nr th j ti x k y) /\ exists k0, k_index nr (oM m) (Fin th) j ti = Ok k0 /\ (k0 = ti \/ m k0 j = None))
    \/ (exists k y, farM m nr th j ti x k y
          /\ (forall k'' y'', farM m nr th j ti x k'' y'' -> k'' <> k -> Rabs (y - x) < Rabs (y'' - x))
          /\ k_index nr (oM m) (Fin th) j ti = Ok k)
    \/ ((exists k y k' y', k <> k' /\ farM m nr th j ti x k y /\ farM m nr th j ti x k' y' /\ y = y')
          /\ k_index nr (oM m) (Fin th) j ti = Raise ValueError).
  Proof.
    set (ip := fun (_ ys : list XR) (_ : XR) => Ok (nth 1 ys NaN)). set (s := fun k (_ : nat) => Some (INR k)).
    pose proof (sal_at_cases ip nr m s th j ti x Hti Hx) as Hc. rewrite sal_at_split in Hc.
    assert (Ho : forall k, on_level ip (oM m) (oM s) (oM s) (Fin th) j ti k =
                   if negb (Nat.eqb k ti) && match m k j with Some _ => true | None => false end then Ok (Fin (INR k)) else Ok (Fin (INR ti))).
    { intros k. unfold on_level, oM. rewrite Hx. cbn. destruct (Nat.eqb k ti); [reflexivity|]. destruct (m k j); reflexivity. }
    destruct Hc as [[Hno Hr]|[(k & y & Hf & Hm & Hr)|[Ht Hr]]].
    - left. split; [assumption|]. destruct (k_index nr (oM m) (Fin th) j ti) as [k0|e]; cbn [bind] in Hr; [|discriminate].
      exists k0. split; [reflexivity|]. rewrite Ho in Hr. destruct (Nat.eqb k0 ti) eqn:Ek; [left; now apply Nat.eqb_eq|]. cbn [negb andb] in Hr.
      destruct (m k0 j); [|now right]. left. cbn in Hr. injection Hr as Hr. now apply INR_eq.
    - right. left. exists k, y. split; [assumption|]. split; [assumption|]. cbn in Hr.
      destruct (k_index nr (oM m) (Fin th) j ti) as [k0|e]; cbn [bind] in Hr; [|discriminate]. rewrite Ho in Hr. unfold ip in Hr. cbn in Hr.
      destruct (negb (Nat.eqb k0 ti) && match m k0 j with Some _ => true | None => false end); injection Hr as Hr; apply INR_eq in Hr; subst.
      + reflexivity.
      + exfalso. destruct Hf as (_ & Hadj & _). lia.
    - right. right. split; [assumption|]. destruct (k_index nr (oM m) (Fin th) j ti) as [k0|e]; cbn [bind] in Hr; [|congruence].
      rewrite Ho in Hr. destruct (negb _ && _); discriminate.
  Qed.
End Index.

Section OnLevel.
  Variable interp1d : list XR -> list XR -> XR -> res XR.
  Variables (v : series) (nr : nat).
  Hypothesis Hlin : linear2 interp1d.
  Notation M := (mask v (d_ptmp v)).

  Lemma on_level_value test val th j ti k x r :
    straddles v nr th j -> nearest_row v nr th j ti x -> k_index nr (oM M) (Fin th) j ti = Ok k ->
    (forall i, test i j <> None -> val i j <> None) ->
    on_level interp1d (oM M) (oM (mask v test)) (oM (mask v val)) (Fin th) j ti k = Ok r ->
    level_value v test val nr (Fin th) j r.
  Proof.
    intros Hst Hn Ek Htv. pose proof Hn as (Hti & Hsx & _).
    assert (Ex : M ti j = Some x) by (now apply sample_mask).
    assert (Hq : forall (w : nat -> nat -> option R) q y, sample v q j y -> mask v w q j = w q j).
    { intros w q y [Hkp _]. unfold mask. apply keptb_spec in Hkp. now rewrite Hkp. }
    unfold on_level. unfold oM. rewrite Ex, !(Hq _ ti x) by assumption. cbn [oX nisnan negb].
    destruct (k_index_cases nr M th j ti x Hti Ex) as [(Hno & k0 & E0 & Hk0)|[(k' & y & Hf & Hmin & E0)|[_ E0]]]; rewrite Ek in E0; [| |discriminate].
    - injection E0 as <-.
      assert (Ec : forall a b c, negb (Nat.eqb k ti) && a && b && c && negb (nisnan (oX (M k j))) = false).
      { intros a b c. destruct Hk0 as [-> | ->]; [now rewrite Nat.eqb_refl|]. cbn. now rewrite andb_false_r. }
      rewrite Ec. intros E. injection E as <-. apply (lv_nearest _ _ _ _ _ _ th ti x); auto. left.
      intros k' x' Hf. apply (Hno k' x'). now apply farM_far.
    - injection E0 as <-. pose proof Hf as (_ & Hadj & Ey & _). apply farM_far in Hf.
      pose proof (far_between _ _ _ _ _ _ _ _ Hn Hf) as Hb. pose proof Hf as (_ & _ & Hsy & _).
      assert (Hp : partner v nr th j ti x k y).
      { split; [assumption|]. intros k'' x'' Hf'' Hne. apply (Hmin k''); [|assumption]. now apply farM_far. }
      rewrite Ey, !(Hq _ k y) by assumption.
      assert (Ene : Nat.eqb k ti = false) by (apply Nat.eqb_neq; lia). rewrite Ene. cbn [negb andb oX].
      pose proof (Htv ti) as Ht1. pose proof (Htv k) as Ht2.
      destruct (test ti j) as [a|] eqn:Ea; cbn [oX]; cbn.
      2:{ intros E. injection E as <-. apply (lv_nearest _ _ _ _ _ _ th ti x); auto. }
      destruct (test k j) as [b|] eqn:Eb; cbn [oX]; cbn.
      2:{ intros E. injection E as <-. apply (lv_nearest _ _ _ _ _ _ th ti x); auto. right. right. exists k, y. auto. }
      destruct (val ti j) as [s|] eqn:Es; [|exfalso; now apply Ht1]. destruct (val k j) as [s'|] eqn:Es'; [|exfalso; now apply Ht2].
      cbn [oX]. rewrite Hlin; [|lra|unfold Rmin, Rmax; destruct (Rle_dec x y); lra].
      intros E. injection E as <-. eapply lv_between; eauto; congruence.
  Qed.

  (* with an interpolation that is always defined on two points, only a tie stops it *)
  Lemma on_level_ok test val th j ti k x :
    straddles v nr th j -> nearest_row v nr th j ti x -> k_index nr (oM M) (Fin th) j ti = Ok k ->
    (forall i, test i j <> None -> val i j <> None) ->
    exists r, on_level interp1d (oM M) (oM (mask v test)) (oM (mask v val)) (Fin th) j ti k = Ok r.
  Proof.
    intros Hst Hn Ek Htv. pose proof Hn as (Hti & Hsx & _).
    assert (Ex : M ti j = Some x) by (now apply sample_mask).
    assert (Hq : forall (w : nat -> nat -> option R) q y, sample v q j y -> mask v w q j = w q j).
    { intros w q y [Hkp _]. unfold mask. apply keptb_spec in Hkp. now rewrite Hkp. }
    unfold on_level. unfold oM. rewrite Ex, !(Hq _ ti x) by assumption. cbn [oX nisnan negb].
    destruct (k_index_cases nr M th j ti x Hti Ex) as [(Hno & k0 & E0 & Hk0)|[(k' & y & Hf & Hmin & E0)|[_ E0]]]; rewrite Ek in E0; [| |discriminate].
    - injection E0 as <-.
      assert (Ec : forall a b c, negb (Nat.eqb k ti) && a && b && c && negb (nisnan (oX (M k j))) = false).
      { intros a b c. destruct Hk0 as [-> | ->]; [now rewrite Nat.eqb_refl|]. cbn. now rewrite andb_false_r. }
      rewrite Ec. eauto.
    - injection E0 as <-. pose proof Hf as (_ & Hadj & Ey & _). apply farM_far in Hf.
      pose proof (far_between _ _ _ _ _ _ _ _ Hn Hf) as Hb. pose proof Hf as (_ & _ & Hsy & _).
      rewrite Ey, !(Hq _ k y) by assumption.
      match goal with |- context [if ?c then _ else _] => destruct c eqn:Ec; [|eauto] end.
      rewrite !andb_true_iff in Ec. destruct Ec as [[[[_ Ea] Eb] _] _]. pose proof (Htv ti) as Ht1. pose proof (Htv k) as Ht2.
      destruct (test ti j) as [a|]; [|discriminate]. destruct (test k j) as [b|]; [|discriminate].
      destruct (val ti j) as [s|]; [|exfalso; now apply Ht1]. destruct (val k j) as [s'|]; [|exfalso; now apply Ht2].
      cbn [oX]. rewrite Hlin; [eauto|lra|unfold Rmin, Rmax; destruct (Rle_dec x y); lra].
  Qed.

  Lemma k_index_ok th j ti x : nearest_row v nr th j ti x ->
    (forall k1 k2 y, far_side v nr th j ti x k1 y -> far_side v nr th j ti x k2 y -> k1 = k2) ->
    exists k, k_index nr (oM M) (Fin th) j ti = Ok k.
  Proof.
    intros (Hti & Hsx & _) Ht. assert (Ex : M ti j = Some x) by (now apply sample_mask).
    destruct (k_index_cases nr M th j ti x Hti Ex) as [(_ & k0 & E0 & _)|[(k' & y & _ & _ & E0)|[(k & y & k' & y' & Hne & F1 & F2 & <-) _]]]; [eauto|eauto|].
    exfalso. apply farM_far in F1, F2. eauto.
  Qed.
End OnLevel.

Definition odata (w : variance_data) : oseven :=
  let d := w_float w in mkOSeven (d_pres d) (d_sal d) (d_ptmp d) (w_map w) (w_map_err w) (w_cal w) (w_cal_err w).

Section Points.
  Variable interp1d : list XR -> list XR -> XR -> res XR.
  Variables (w : variance_data) (nr nc : nat) (v : series).
  Notation d := (w_float w).
  Hypothesis Hlin : linear2 interp1d.
  Hypothesis Hv : visible d nr nc v.
  Hypothesis Hk : errors_known w.

  Lemma keptb_v i j : keptb v i j = negb (hb d nr nc i j).
  Proof.
    destruct Hv as (_ & E1 & E2 & E3 & E4 & Hs). unfold keptb. rewrite E1, E2, E3, E4.
    assert (Ed : forall o, disc None None o = false) by (intros o; apply disc_spec; cbn; auto). rewrite !Ed. cbn [negb]. rewrite !andb_true_r.
    specialize (Hs i j). pose proof (hb_iff d nr nc i j) as Hb.
    destruct (d_la v i j), (hb d nr nc i j); cbn; auto; exfalso.
    - assert (shown d nr nc i j) by (apply Hs; discriminate). apply Hb in H. discriminate.
    - assert (shown d nr nc i j) by now apply Hb. apply Hs in H. now apply H.
  Qed.
  Lemma hide_mask m : hideM (hb d nr nc) m = mask v m.
  Proof. extensionality i; extensionality j. unfold hideM, mask. rewrite keptb_v. destruct (hb d nr nc i j); reflexivity. Qed.
  Lemma mask_ptmp : mask v (d_ptmp d) = mask v (d_ptmp v).
  Proof. destruct Hv as (-> & _). reflexivity. Qed.

  Definition good_point (theta : XR) (j : nat) (q : @point XR) : Prop :=
    level_value v (d_sal d) (d_sal d) nr theta j (q_int q)
    /\ level_value v (w_map w) (w_map w) nr theta j (q_map q)
    /\ level_value v (w_map w) (w_map_err w) nr theta j (q_map_err q)
    /\ level_value v (w_cal w) (w_cal w) nr theta j (q_cal q)
    /\ level_value v (w_cal w) (w_cal_err w) nr theta j (q_cal_err q).

  Lemma level_point_value theta j q : level_point interp1d nr (oS (hide7 (hb d nr nc) (odata w))) theta j = Ok q -> good_point theta j q.
  Proof.
    unfold level_point, good_point. cbn [v_ptmp v_sal v_map_sal v_map_err v_cal_sal v_cal_err oS hide7 odata o1 o2 o3 o4 o5 o6 o7].
    rewrite !hide_mask, mask_ptmp. pose proof (theta_index_sample v nr theta j) as T.
    destruct (theta_index nr (oM (mask v (d_ptmp v))) theta j) as [ti|].
    2:{ intros E. injection E as <-. cbn [q_int q_map q_map_err q_cal q_cal_err]. repeat split; now apply lv_none. }
    destruct T as (th & x & -> & Hst & Hn). intros E. apply bind_ok in E as (k & Ek & E).
    apply bind_ok in E as (a & Ea & E). apply bind_ok in E as (b & Eb & E). apply bind_ok in E as (c & Ec & E).
    apply bind_ok in E as (e & Ee & E). apply bind_ok in E as (f & Ef & E). injection E as <-.
    cbn [q_int q_map q_map_err q_cal q_cal_err]. destruct Hk as [K1 K2].
    repeat split; eapply (on_level_value interp1d v nr Hlin); eauto.
  Qed.

  Lemma level_point_ok theta j :
    (forall th k x k1 k2 y, theta = Fin th -> straddles v nr th j -> nearest_row v nr th j k x -> far_side v nr th j k x k1 y -> far_side v nr th j k x k2 y -> k1 = k2) ->
    exists q, level_point interp1d nr (oS (hide7 (hb d nr nc) (odata w))) theta j = Ok q.
  Proof.
    intros Ht. unfold level_point. cbn [v_ptmp v_sal v_map_sal v_map_err v_cal_sal v_cal_err oS hide7 odata o1 o2 o3 o4 o5 o6 o7].
    rewrite !hide_mask, mask_ptmp. pose proof (theta_index_sample v nr theta j) as T.
    destruct (theta_index nr (oM (mask v (d_ptmp v))) theta j) as [ti|]; [|eauto].
    destruct T as (th & x & -> & Hst & Hn).
    destruct (k_index_ok v nr th j ti x Hn) as (k & Ek). { intros. eapply Ht; eauto. }
    rewrite Ek. cbn [bind]. destruct Hk as [K1 K2].
    destruct (on_level_ok interp1d v nr Hlin (d_sal d) (d_sal d) th j ti k x Hst Hn Ek ltac:(auto)) as (a & ->). cbn [bind].
    destruct (on_level_ok interp1d v nr Hlin (w_map w) (w_map w) th j ti k x Hst Hn Ek ltac:(auto)) as (b & ->). cbn [bind].
    destruct (on_level_ok interp1d v nr Hlin (w_map w) (w_map_err w) th j ti k x Hst Hn Ek ltac:(auto)) as (c & ->). cbn [bind].
    destruct (on_level_ok interp1d v nr Hlin (w_cal w) (w_cal w) th j ti k x Hst Hn Ek ltac:(auto)) as (e & ->). cbn [bind].
    destruct (on_level_ok interp1d v nr Hlin (w_cal w) (w_cal_err w) th j ti k x Hst Hn Ek ltac:(auto)) as (f & ->). cbn [bind]. eauto.
  Qed.
End Points.
