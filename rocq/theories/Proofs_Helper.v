From Coq Require Import ZArith List Bool Reals Lra Lia.
From Verif Require Import Num Np NumFacts NpFacts Stats Helper Spec_Stats Spec_Finders Spec_Helper Proofs_Besthist Proofs_Thetas2 Proofs_Stats1
  Proofs_Fetchers.
Import ListNotations.

(* ---- C62 ---- *)
Section Window.
  Context {T : Type} `{Num T}.
  Lemma gather_points {A} (f : hpoint T -> A) d p (l : list (hpoint T)) extra :
    index_array d (map f l ++ extra) (argwhere p l) = Ok (map f (filter p l)).
  Proof.
    unfold index_array.
    replace (forallb _ (argwhere p l)) with true.
    - f_equal. destruct l as [|q0 l']; [reflexivity|]. set (l := q0 :: l').
      rewrite <- (take_argwhere q0 p l). unfold take. rewrite map_map. apply map_ext_in.
      intros i Hi. apply (argwhere_spec q0) in Hi as [Hi _].
      rewrite app_nth1 by (rewrite map_length; exact Hi). now rewrite (nth_map f l i d q0).
    - symmetry. apply forallb_forall. intros i Hi. apply Nat.ltb_lt.
      destruct l as [|q0 l']; [destruct Hi|]. apply (argwhere_spec q0) in Hi as [Hi _].
      rewrite app_length, map_length. lia.
  Qed.
  Lemma take_points {A B} (f : A -> B) d p (l : list A) : take d (map f l) (argwhere p l) = map f (filter p l).
  Proof.
    destruct l as [|q0 l']; [reflexivity|]. set (l := q0 :: l').
    rewrite <- (take_argwhere q0 p l). unfold take. rewrite map_map. apply map_ext_in.
    intros i Hi. apply (argwhere_spec q0) in Hi as [Hi _]. now rewrite (nth_map f l i d q0).
  Qed.
  Lemma argwhere_map' {A B} (f : A -> B) p (l : list A) : argwhere p (map f l) = argwhere (fun a => p (f a)) l.
  Proof. unfold argwhere. generalize 0%nat. induction l as [|a l IH]; intros k; cbn; [reflexivity|]. rewrite !IH. reflexivity. Qed.
  Lemma filter_filter {A} (p q : A -> bool) l : filter q (filter p l) = filter (fun x => p x && q x) l.
  Proof. induction l as [|a l IH]; cbn; [reflexivity|]. destruct (p a); cbn; [destruct (q a)|]; now rewrite IH. Qed.

  Theorem window (l : list (hpoint T)) more p delta :
    process_profile_hist_variables (map hp_long l) (map hp_lat l) (map hp_date l) (map hp_z l ++ more) p
      (map (fun q => (hp_sal q, hp_pres q)) l) delta
    = Ok (hist_of (filter (in_window p delta) l)).
  Proof.
    unfold process_profile_hist_variables. cbv zeta.
    rewrite argwhere_map'. cbn [fst].
    set (v := fun q : hpoint T => negb (nisnan (hp_sal q))).
    rewrite !take_points, !map_map. cbn [fst snd].
    pose proof (fun f => gather_points f nnan v l []) as G.
    assert (G' : forall f : hpoint T -> T, index_array nnan (map f l) (argwhere v l) = Ok (map f (filter v l)))
      by (intros f; rewrite <- (G f), app_nil_r; reflexivity).
    rewrite !G'. cbn [bind]. rewrite gather_points. cbn [bind].
    rewrite argwhere_map', !take_points, !filter_filter. reflexivity.
  Qed.
End Window.

(* ---- C61 ---- *)
Section Outliers.
  Context {T : Type} `{Num T}.
  Theorem removal_aligned (p : T -> bool) (l : list (hpoint T)) :
    remove_statical_outliers (argwhere p (map hp_sal l)) (hist_of l) = hist_of (filter (fun q => negb (p (hp_sal q))) l).
  Proof.
    unfold remove_statical_outliers. destruct (argwhere p (map hp_sal l)) as [|i r] eqn:E.
    - assert (A : forall q, In q l -> p (hp_sal q) = false).
      { intros q Hq. destruct (p (hp_sal q)) eqn:P; [|reflexivity]. exfalso.
        apply (in_map hp_sal) in Hq. apply (In_nth _ _ nnan) in Hq as (j & Hj & Ej).
        assert (In j (argwhere p (map hp_sal l))) by (apply (argwhere_spec nnan); rewrite Ej; auto).
        rewrite E in H0. destruct H0. }
      f_equal. clear E. induction l as [|q l IH]; [reflexivity|]. cbn. rewrite A by (now left). cbn.
      f_equal. apply IH. intros; apply A; now right.
    - cbv iota. rewrite <- E. unfold hist_of. cbn [h_sal h_pres Helper.h_long Helper.h_lat h_dates h_z]. now rewrite !np_delete_argwhere.
  Qed.
End Outliers.

Local Open Scope R_scope.
Definition outlying (l : list R) (x : R) : Prop := 3 * rsd l < Rabs (x - rmean l).

Lemma rmean_nonneg_sq (l : list R) m : 0 <= fold_right Rplus 0 (map (fun x => (x - m) ^ 2) l).
Proof. induction l as [|a l IH]; cbn [map fold_right]; [lra|]. pose proof (pow2_ge_0 (a - m)). lra. Qed.

(* Chebyshev *)
Lemma chebyshev (l : list R) m s (p : R -> bool) :
  (forall x, p x = true -> 3 * s < Rabs (x - m)) -> 0 <= s -> (exists x, In x l /\ p x = true) ->
  9 * s ^ 2 * INR (length (filter p l)) < fold_right Rplus 0 (map (fun x => (x - m) ^ 2) l).
Proof.
  intros Hp Hs. assert (B : forall x, p x = true -> 9 * s ^ 2 < (x - m) ^ 2).
  { intros x Px. specialize (Hp x Px). rewrite <- (pow2_abs (x - m)). pose proof (Rabs_pos (x - m)). nra. }
  assert (W : forall l, 9 * s ^ 2 * INR (length (filter p l)) <= fold_right Rplus 0 (map (fun x => (x - m) ^ 2) l)).
  { induction l0 as [|a l0 IH]; cbn [filter map fold_right length]; [cbn; lra|]. destruct (p a) eqn:Pa.
    - specialize (B a Pa). cbn [length]. rewrite S_INR. lra.
    - pose proof (pow2_ge_0 (a - m)). lra. }
  intros (x & Hx & Px). induction l as [|a l IH]; [destruct Hx|]. cbn [filter map fold_right].
  destruct Hx as [->|Hx].
  - rewrite Px. cbn [length]. rewrite S_INR. specialize (B x Px). specialize (W l). lra.
  - specialize (IH Hx). destruct (p a) eqn:Pa; [cbn [length]; rewrite S_INR; specialize (B a Pa); lra|].
    pose proof (pow2_ge_0 (a - m)). lra.
Qed.
Lemma sum_sq_zero (l : list R) m : fold_right Rplus 0 (map (fun x => (x - m) ^ 2) l) = 0 -> forall x, In x l -> x = m.
Proof.
  induction l as [|a l IH]; intros E x Hx; [destruct Hx|]. cbn [map fold_right] in E.
  pose proof (rmean_nonneg_sq l m). pose proof (pow2_ge_0 (a - m)).
  destruct Hx as [<-|Hx]; [|apply IH; [lra|assumption]].
  assert (Ea : (a - m) ^ 2 = 0) by lra. assert (a - m = 0) by nra. lra.
Qed.
Lemma rsd_sq l : l <> [] -> rsd l ^ 2 * INR (length l) = fold_right Rplus 0 (map (fun x => (x - rmean l) ^ 2) l).
Proof.
  intros Hl. assert (0 < INR (length l)) by (apply lt_0_INR; destruct l; [congruence|cbn; lia]).
  unfold rsd. rewrite pow2_sqrt; [field; lra|].
  apply Rmult_le_reg_r with (INR (length l)); [lra|]. unfold Rdiv. rewrite Rmult_assoc, Rinv_l by lra.
  pose proof (rmean_nonneg_sq l (rmean l)). lra.
Qed.

Lemma outliers_value (l : list R) : l <> [] ->
  exists p : R -> bool, outliers (map Fin l) = Ok (argwhere p l) /\
    (forall x, In x l -> (p x = true <-> outlying l x)).
Proof.
  intros Hl. unfold outliers. cbv zeta.
  assert (ES : signal_variance (map Fin l) = Ok (Fin (pop_var l))).
  { replace (map Fin l) with (map oX (map Some l)) by (rewrite map_map; reflexivity).
    assert (E : somes (map Some l) = l) by (clear; induction l; cbn; [reflexivity|now f_equal]).
    rewrite (proj2 (signal_variance_value (map Some l))); rewrite E; [reflexivity|exact Hl]. }
  rewrite ES. cbn [bind]. rewrite argwhere_map', mean_fin by exact Hl.
  change (mean_of l) with (rmean l).
  assert (EV : nsqrt (Fin (pop_var l)) = Fin (rsd l)).
  { assert (Hv : 0 <= pop_var l).
    { unfold pop_var, mean_of. rewrite map_length. pose proof (rmean_nonneg_sq l (mean_of l)).
      assert (0 < INR (length l)) by (apply lt_0_INR; destruct l; [congruence|cbn; lia]).
      apply Rmult_le_pos; [exact H|left; now apply Rinv_0_lt_compat]. }
    change (nsqrt (Fin (pop_var l))) with (xsqrt (Fin (pop_var l))). rewrite xsqrt_fin by exact Hv. f_equal.
    unfold pop_var, rsd, mean_of at 1. rewrite map_length. reflexivity. }
  rewrite EV.
  eexists. split; [reflexivity|]. intros x Hx. cbv beta.
  change (nsub (Fin x) (Fin (rmean l))) with (Fin (x - rmean l)). change (nabs (Fin (x - rmean l))) with (Fin (Rabs (x - rmean l))).
  assert (Hs : 0 <= rsd l) by apply sqrt_pos. unfold outlying.
  destruct (Req_dec (rsd l) 0) as [Z0|NZ].
  - rewrite Z0. pose proof (rsd_sq l Hl) as Q. rewrite Z0 in Q. replace (0 ^ 2 * INR (length l)) with 0 in Q by ring.
    rewrite (sum_sq_zero l (rmean l) (eq_sym Q) x Hx). rewrite Rminus_diag_eq, Rabs_R0 by reflexivity.
    split; [|lra]. intros B. exfalso. revert B.
    change (ndiv (T := XR) (Fin 0) (Fin 0)) with (xdiv (Fin 0) (Fin 0)). unfold xdiv.
    destruct (Req_EM_T 0 0) as [_|C]; [|lra]. destruct (Rlt_dec 0 0) as [C|_]; [lra|]. discriminate.
  - rewrite ndiv_fin by exact NZ. change (nofZ 3) with (Fin 3).
    change (nltb (Fin 3) (Fin (Rabs (x - rmean l) / rsd l))) with (Rltb 3 (Rabs (x - rmean l) / rsd l)).
    assert (Hp : 0 < rsd l) by lra.
    assert (EQ : Rabs (x - rmean l) = Rabs (x - rmean l) / rsd l * rsd l) by (field; lra).
    set (q := Rabs (x - rmean l) / rsd l) in *. clearbody q. rewrite EQ.
    unfold Rltb. destruct (Rlt_dec 3 q) as [C|C]; split; intros D; try discriminate; try reflexivity; [nra|exfalso; apply C; nra].
Qed.

(* fewer than one in nine is removed, and they are the outlying ones *)
Theorem outliers_few (l : list (hpoint XR)) (sal : list R) : l <> [] -> map hp_sal l = map Fin sal ->
  exists idx keep, outliers (map hp_sal l) = Ok idx /\
    remove_statical_outliers idx (hist_of l) = hist_of (filter keep l) /\
    (forall q x, In q l -> hp_sal q = Fin x -> (keep q = true <-> Rabs (x - rmean sal) <= 3 * rsd sal)) /\
    9 * INR (length l - length (filter keep l)) < INR (length l).
Proof.
  intros Hl ES. assert (Hsal : sal <> []) by (intros ->; destruct l; [congruence|discriminate]).
  destruct (outliers_value sal Hsal) as (p & EO & HP).
  set (pX := fun v : XR => match v with Fin r => p r | _ => false end).
  assert (EA : argwhere p sal = argwhere pX (map hp_sal l)) by (rewrite ES, argwhere_map'; reflexivity).
  exists (argwhere p sal), (fun q => negb (pX (hp_sal q))).
  split; [now rewrite ES|]. split; [rewrite EA; apply removal_aligned|]. split.
  - intros q x Hq Ex. rewrite Ex. cbn [pX]. assert (Hx : In x sal).
    { apply (in_map hp_sal) in Hq. rewrite ES, Ex in Hq. apply in_map_iff in Hq as (y & Ey & Hy). now inversion Ey; subst. }
    specialize (HP x Hx). unfold outlying in HP. destruct (p x); cbn; split; intros D; try discriminate; try reflexivity.
    + exfalso. pose proof (proj1 HP eq_refl). lra.
    + apply Rnot_lt_le. intros C. now apply HP in C.
  - assert (EL : length l = length sal) by (rewrite <- (map_length hp_sal l), ES; apply map_length).
    assert (EF : (length l - length (filter (fun q => negb (pX (hp_sal q))) l) = length (filter p sal))%nat).
    { assert (G : (length (filter (fun q => negb (pX (hp_sal q))) l) + length (filter pX (map hp_sal l)) = length l)%nat).
      { clear. induction l as [|q l IH]; [reflexivity|]. cbn. destruct (pX (hp_sal q)); cbn; lia. }
      rewrite <- !argwhere_length in *. rewrite <- EA in G. lia. }
    rewrite EF, EL. assert (Pn : 0 < INR (length sal)) by (apply lt_0_INR; destruct sal; [congruence|cbn; lia]).
    destruct (filter p sal) as [|x r] eqn:EFp; [cbn; lra|]. rewrite <- EFp.
    assert (Hx : In x sal /\ p x = true) by (apply filter_In; rewrite EFp; now left).
    set (p' := fun x => p x && if Rlt_dec (3 * rsd sal) (Rabs (x - rmean sal)) then true else false).
    assert (EP : filter p sal = filter p' sal).
    { apply filter_ext_in. intros y Hy. unfold p'. destruct (p y) eqn:Py; [|reflexivity]. cbn.
      apply (HP y Hy) in Py. unfold outlying in Py. destruct (Rlt_dec _ _); [reflexivity|contradiction]. }
    assert (C := chebyshev sal (rmean sal) (rsd sal) p').
    assert (C1 : 9 * rsd sal ^ 2 * INR (length (filter p' sal)) < rsd sal ^ 2 * INR (length sal)).
    { rewrite rsd_sq by exact Hsal. apply C.
      - intros y Hy. unfold p' in Hy. destruct (Rlt_dec _ _); [assumption|]. now rewrite andb_false_r in Hy.
      - apply sqrt_pos.
      - exists x. split; [tauto|]. assert (In x (filter p' sal)) by (rewrite <- EP; rewrite EFp; now left). now apply filter_In in H. }
    rewrite <- EP in C1. set (c := INR (length (filter p sal))) in *. clearbody c.
    pose proof (pow2_ge_0 (rsd sal)). set (v := rsd sal ^ 2) in *. clearbody v. nra.
Qed.
