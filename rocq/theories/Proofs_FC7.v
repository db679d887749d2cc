(* Proofs for fit_cond: what it returns when no break points are prescribed *)
From Coq Require Import String ZArith List Bool Reals Lra Lia Sorted Permutation FunctionalExtensionality.
From Flocq Require Import Core.Raux.
From Verif Require Import Num Np NumFacts NpFacts Utilities Finders Stats FitCond Spec_Utilities Spec_Finders Spec_Stats
  Spec_FitCond LinR LeastSq Proofs_Utilities Proofs_Besthist Proofs_Thetas2 Proofs_Stats1 Proofs_Fit Proofs_FC1 Proofs_FC2 Proofs_FC3 Proofs_FC4 Proofs_FC5 Proofs_FC6.
Import ListNotations.
Local Open Scope R_scope.
Local Open Scope list_scope.

Section NoBreaks.
  Context {T : Type} `{Num T} `{NumT T}.
  Notation mat := (nat -> nat -> T).
  Variable det : nat -> mat -> T.
  Variable solve : nat -> nat -> mat -> mat -> res mat.
  Variable inv : nat -> mat -> res mat.
  Variable least_squares : (list T -> res (list T)) -> list T -> res (list (list T) * list T).
  Variable rng : Type.
  Variable randn : nat -> rng -> list T * rng.
  Notation call := (fit_cond det solve inv least_squares rng randn).

  Definition plain_opts (o : @opts T) : Prop := o_set o = false /\ exists z, o_nloops o = VInt z /\ (0 <= z)%Z.
  Lemma parse_plain p o a (w : pyval T) o' : plain_opts o -> well_formed (a, w) -> free_breaks [(a, w)] ->
    parse_option p o a w = Ok o' -> plain_opts o'.
  Proof.
    intros Ho (k & Hk & (s & Ea & Es) & _) Hf. destruct (Hf _ (or_introl eq_refl)) as [Nb Hn]. cbn [fst snd] in *.
    subst a. unfold parse_option.
    destruct (str_cases s k Hk Es) as [(E1 & Q)|[(E1 & E2 & Q)|[(E1 & E2 & E3 & Q)|[(E1 & E2 & E3 & E4 & Q)|(E1 & E2 & E3 & E4 & E5 & Q)]]]].
    - rewrite E1. destruct w; try discriminate; intros E; apply ok_inj in E; subst o'; exact Ho.
    - rewrite E1, E2. intros E; apply ok_inj in E; subst o'; exact Ho.
    - rewrite E1, E2, E3. destruct w; try discriminate; intros E; apply ok_inj in E; subst o'; exact Ho.
    - rewrite E1, E2, E3, E4. intros E; apply ok_inj in E; subst o'. split; [apply Ho|].
      apply Hn. exists s. rewrite Es. auto.
    - exfalso. apply Nb. exists s. rewrite Es. auto.
  Qed.
  Lemma parse_pairs_plain p ps : Forall well_formed ps -> free_breaks ps -> forall o o', plain_opts o ->
    parse_pairs p o (flat ps) = Ok o' -> plain_opts o'.
  Proof.
    induction ps as [|[a w] ps IH]; intros F Hf o o' Ho; [intros E; apply ok_inj in E; now subst|].
    change (flat ((a, w) :: ps)) with (a :: w :: flat ps). cbn [parse_pairs]. intros E.
    apply bind_ok in E as (o1 & E1 & E2). inversion F. subst. apply (IH ltac:(auto)) with o1; auto.
    - intros q Hq. apply Hf. simpl. auto.
    - apply (parse_plain p o a w o1 Ho); auto. intros q [<-|[]]. apply Hf. simpl. auto.
  Qed.

  Lemma evaluate_shape p o nbr1 t best g f g' : (best <= 2)%nat ->
    evaluate det solve inv least_squares rng randn p o nbr1 t best g = (Ok f, g') ->
    f_breaks f = [] /\ (length (f_coef f) <= 2)%nat.
  Proof.
    intros Hb. unfold evaluate. destruct (param_var _ _ _ _) as [[p1 p2]|]; [|discriminate].
    match goal with |- context [let '(err, g') := ?X in _] => destruct X as [[err|] g''] end; [|discriminate].
    intros E. apply (f_equal fst) in E. cbn [fst] in E. apply ok_inj in E. subst f. cbn [f_breaks f_coef].
    destruct (Nat.ltb_spec 2 best); [lia|]. split; [reflexivity|].
    cbn [length]. rewrite map_length. unfold tab. destruct best as [|[|[|best]]]; cbn; lia.
  Qed.

  Lemma fit_plain x y e lv args g o f g' : parse_args (prepare x y e lv) args = Ok o -> plain_opts o ->
    call x y e lv args g = (Ok (Fitted f), g') -> f_breaks f = [] /\ (length (f_coef f) <= 2)%nat.
  Proof.
    intros Ep [Hs (z & Hl & Hz)]. unfold fit_cond. destruct (good_points x y) as [|a r]; [discriminate|]. cbv zeta.
    rewrite Ep. cbn [bind].
    match goal with |- context [match ?X with Ok _ => _ | Raise _ => _ end] => destruct X as [[[[o1 nbr1] t2] best]|] eqn:Es; [|discriminate] end.
    assert (o1 = o).
    { apply bind_ok in Es as (m & _ & Es). apply bind_ok in Es as (d & _ & Es). apply bind_ok in Es as ([[n1 m1] t1] & _ & Es).
      destruct (candidates _ _ _ _) as [[pb n2] m2]. apply bind_ok in Es as (t3 & _ & Es). apply bind_ok in Es as (b3 & _ & Es).
      apply ok_inj in Es. congruence. }
    subst o1. intros E. destruct (le_lt_dec best 2) as [L|L].
    - destruct (evaluate _ _ _ _ _ _ _ _ _ _ _ _) as [[f0|] g0] eqn:Ev; [|discriminate].
      assert (f0 = f) by congruence. subst f0. now apply evaluate_shape in Ev.
    - destruct (evaluate_breaks det solve inv least_squares rng randn (prepare x y e lv) o nbr1 t2 best g z L Hs Hl Hz) as (e1 & g1 & Q).
      rewrite Q in E. discriminate.
  Qed.

  Theorem fit_without_breaks x y e lv ps g f g' : Forall well_formed ps -> free_breaks ps ->
    call x y e lv (flat ps) g = (Ok (Fitted f), g') -> f_breaks f = [] /\ (length (f_coef f) <= 2)%nat.
  Proof.
    intros F Hf E. destruct (parse_flat (prepare x y e lv) ps [] F default_opts) as (o & Ep & _).
    rewrite app_nil_r in Ep. cbn [parse_pairs] in Ep.
    apply (fit_plain x y e lv (flat ps) g o f g'); auto.
    - unfold parse_args. rewrite flat_even. exact Ep.
    - apply (parse_pairs_plain (prepare x y e lv) ps F Hf default_opts); auto.
      split; [reflexivity|]. exists 200%Z. split; [reflexivity|lia].
  Qed.
End NoBreaks.

(* ---- the criterion ---- *)
Lemma ntoZ_floor r : ntoZ (nfloor (Fin r)) = Zfloor r.
Proof. cbn [ntoZ nfloor XR_Num xlift xtoZ]. apply Ztrunc_IZR. Qed.

Lemma nltb_fin a b : nltb (Fin a) (Fin b) = Rltb a b. Proof. reflexivity. Qed.

Lemma candidates_plain (p : @prep XR) o mx v : ndf p = Fin v -> o_set o = false -> (-1 <= mx)%Z ->
  exists K, most_breaks v mx K /\ candidates p o (-1) mx = (zrange (-1) (K + 1), (-1)%Z, mx).
Proof.
  intros Hv Ho Hm. unfold candidates. rewrite Hv, Ho.
  change (nofZ (2 * (mx + 2) + 1)) with (Fin (IZR (2 * (mx + 2) + 1))).
  change (nofZ (2 * (-1 + 2) + 1)) with (Fin 3).
  rewrite !nltb_fin. destruct (Rltb v (IZR (2 * (mx + 2) + 1))) eqn:E1.
  - apply Rltb_true in E1. destruct (Rltb 3 v) eqn:E2.
    + apply Rltb_true in E2.
      replace (nsub (ndiv (nsub (Fin v) (nofZ 1)) (nofZ 2)) (nofZ 2)) with (Fin ((v - 1) / 2 - 2)).
      2:{ cbn [nsub nofZ XR_Num xsub]. rewrite ndiv_fin by lra. reflexivity. }
      rewrite ntoZ_floor. set (K := Zfloor ((v - 1) / 2 - 2)).
      exists K. split; [|reflexivity]. pose proof (Zfloor_lb ((v - 1) / 2 - 2)) as L1. pose proof (Zfloor_ub ((v - 1) / 2 - 2)) as L2.
      fold K in L1, L2. split; [split|split].
      * assert (-2 < K)%Z; [|lia]. apply lt_IZR. lra.
      * assert (K < mx + 1)%Z; [|lia]. apply lt_IZR. rewrite plus_IZR. rewrite !plus_IZR, mult_IZR, plus_IZR in E1. lra.
      * right. rewrite plus_IZR, mult_IZR. lra.
      * intros k Hk Hkv. rewrite plus_IZR, mult_IZR in Hkv.
        assert (k < K + 1)%Z; [|lia]. apply lt_IZR. rewrite plus_IZR. lra.
    + apply Rltb_false in E2. exists (-1)%Z. split; [|reflexivity]. split; [lia|]. split; [auto|].
      intros k Hk Hkv. rewrite plus_IZR, mult_IZR in Hkv. assert (0 <= IZR k) by (apply IZR_le; lia). lra.
  - apply Rltb_false in E1. exists mx. split; [|reflexivity]. split; [lia|]. split; [|lia].
    right. rewrite !plus_IZR, mult_IZR, plus_IZR in E1. rewrite plus_IZR, mult_IZR. lra.
Qed.
