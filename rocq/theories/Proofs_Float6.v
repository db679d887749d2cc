(* Exact symmetries of arithmetic on doubles: they hold for every double, also for infinities and
   NaN, and with any rounding error. *)
From Coq Require Import ZArith List Bool Reals Lra Lia.
From Flocq Require Import Core.Core IEEE754.BinarySingleNaN.
From Verif Require Import Num Np NumFacts Float Spec_Float Proofs_Float1 Proofs_Float2 Proofs_Float3.
Import ListNotations.
Local Open Scope R_scope.

(* equal, or equal up to the sign *)
Definition pm (x y : f64) : Prop := x = y \/ x = nopp y.

Lemma opp_opp (x : f64) : nopp (nopp x) = x.
Proof. exact (Bopp_involutive 53 1024 x). Qed.
Lemma pm_refl x : pm x x. Proof. now left. Qed.
Lemma pm_sym x y : pm x y -> pm y x.
Proof. intros [->| ->]; [now left|right]. symmetry. apply opp_opp. Qed.

Lemma fin_cases (x : f64) : finite x -> (exists s, x = B754_zero s) \/ is_finite_strict x = true.
Proof. destruct x as [s|s| |s m e H]; unfold finite; simpl; eauto; discriminate. Qed.

Lemma strict_val (x : f64) : finite x -> val x <> 0 -> is_finite_strict x = true.
Proof. intros F N. destruct (fin_cases x F) as [(s & ->)|H]; [now elim N|exact H]. Qed.

Lemma val_zero (x : f64) : finite x -> val x = 0 -> exists s, x = B754_zero s.
Proof.
  intros F Z. destruct (fin_cases x F) as [H|H]; [exact H|]. exfalso.
  destruct x as [s|s| |s m e B]; try discriminate. unfold val in Z. cbn in Z.
  apply eq_0_F2R in Z. destruct s; discriminate.
Qed.

(* two finite doubles of opposite value *)
Lemma pm_opp_val (x y : f64) : finite x -> finite y -> val x = - val y -> pm x y.
Proof.
  intros Fx Fy E. destruct (Req_dec (val y) 0) as [Z|N].
  - destruct (val_zero y Fy Z) as (s & ->).
    destruct (val_zero x Fx ltac:(rewrite E, Z; ring)) as (s' & ->).
    destruct s, s'; ((left; reflexivity) || (right; reflexivity)).
  - right. apply (B2R_inj 53 1024).
    + apply strict_val; [exact Fx|]. intros Z. apply N. lra.
    + apply strict_val.
      * unfold finite. change (nopp y) with (Bopp y). now rewrite is_finite_Bopp.
      * rewrite val_opp. intros Z. apply N. lra.
    + change (val x = val (nopp y)). now rewrite val_opp.
Qed.

Lemma overflow_NE s : binary_overflow 53 1024 mode_NE s = SpecFloat.S754_infinity s.
Proof. reflexivity. Qed.
Lemma SF_inf (x : f64) s : B2SF x = SpecFloat.S754_infinity s -> x = B754_infinity s.
Proof. destruct x; cbn; intros E; try discriminate. now injection E as ->. Qed.

Lemma pm_inf s s' : pm (B754_infinity s) (B754_infinity s').
Proof. destruct s, s'; ((left; reflexivity) || (right; reflexivity)). Qed.

Lemma sub_pm (a b : f64) : pm (nsub a b) (nsub b a).
Proof.
  fcase a; fcase b; try (left; reflexivity).
  - pose proof (Bminus_correct 53 1024 _ _ mode_NE a b H H0) as C.
    pose proof (Bminus_correct 53 1024 _ _ mode_NE b a H0 H) as D.
    fold (val a) (val b) in *. fold (rnd (val a - val b)) in C. fold (rnd (val b - val a)) in D.
    assert (E : rnd (val b - val a) = - rnd (val a - val b)).
    { rewrite <- rnd_opp. f_equal. ring. }
    rewrite E, Rabs_Ropp in D. destruct Rlt_bool.
    + destruct C as (C1 & C2 & _). destruct D as (D1 & D2 & _).
      apply pm_opp_val; [exact C2|exact D2|].
      transitivity (rnd (val a - val b)); [exact C1|]. 
      assert (D1' : val (nsub b a) = - rnd (val a - val b)) by exact D1. lra.
    + destruct C as (C1 & _). destruct D as (D1 & _). rewrite overflow_NE in *.
      apply SF_inf in C1. apply SF_inf in D1. 
      change (nsub a b) with (Bminus mode_NE a b). change (nsub b a) with (Bminus mode_NE b a).
      rewrite C1, D1. apply pm_inf.
  - destruct a; left; reflexivity.
  - destruct a as [s'|s'| |s' m' e' B']; try discriminate; apply pm_inf.
  - destruct b; left; reflexivity.
  - destruct b as [s'|s'| |s' m' e' B']; try discriminate; apply pm_inf.
  - destruct s, s0; ((left; reflexivity) || (right; reflexivity)).
Qed.

Lemma B2SF_eq (x y : f64) : B2SF x = B2SF y -> x = y.
Proof. apply B2SF_inj. Qed.

(* two finite doubles of equal value and sign *)
Lemma fin_eq (x y : f64) : finite x -> finite y -> val x = val y -> Bsign x = Bsign y -> x = y.
Proof. intros. now apply (B2R_Bsign_inj 53 1024). Qed.

Lemma add_comm (a b : f64) : nadd a b = nadd b a.
Proof.
  fcase a; fcase b; try reflexivity.
  - pose proof (Bplus_correct 53 1024 _ _ mode_NE a b H H0) as C.
    pose proof (Bplus_correct 53 1024 _ _ mode_NE b a H0 H) as D.
    fold (val a) (val b) in *. rewrite (Rplus_comm (val b)) in D.
    destruct Rlt_bool.
    + destruct C as (C1 & C2 & C3). destruct D as (D1 & D2 & D3).
      apply fin_eq; [exact C2|exact D2|exact (eq_trans C1 (eq_sym D1))|].
      rewrite (andb_comm (Bsign b)) in D3. exact (eq_trans C3 (eq_sym D3)).
    + destruct C as (C1 & C2). destruct D as (D1 & D2). apply B2SF_eq.
      rewrite C2 in C1. exact (eq_trans C1 (eq_sym D1)).
  - destruct a; reflexivity.
  - destruct a; try reflexivity; discriminate.
  - destruct b; reflexivity.
  - destruct b; try reflexivity; discriminate.
  - destruct s, s0; reflexivity.
Qed.

Lemma mul_opp (x y : f64) : nmul (nopp x) (nopp y) = nmul x y.
Proof.
  pose proof (Bmult_correct 53 1024 _ _ mode_NE x y) as C.
  pose proof (Bmult_correct 53 1024 _ _ mode_NE (nopp x) (nopp y)) as D.
  change (B2R (nopp x)) with (val (nopp x)) in D. change (B2R (nopp y)) with (val (nopp y)) in D.
  rewrite !val_opp in D. fold (val x) (val y) in C.
  replace (- val x * - val y) with (val x * val y) in D by ring.
  change (nopp x) with (Bopp x) in D. change (nopp y) with (Bopp y) in D. rewrite !is_finite_Bopp in D.
  fcase x; fcase y; try reflexivity;
    try (destruct s; reflexivity); try (destruct s, s0; reflexivity).
  2:{ destruct x; reflexivity. }
  2:{ destruct x as [s'|s'| |s' m' e' B']; try discriminate; destruct s, s'; reflexivity. }
  2:{ destruct y as [s'|s'| |s' m' e' B']; try discriminate; destruct s, s'; reflexivity. }
  destruct Rlt_bool.
  + destruct C as (C1 & C2 & C3). destruct D as (D1 & D2 & D3).
    assert (N1 : is_nan (Bmult mode_NE x y) = false).
    { destruct (Bmult mode_NE x y); try reflexivity. rewrite H, H0 in C2. discriminate. }
    assert (N2 : is_nan (Bmult mode_NE (Bopp x) (Bopp y)) = false).
    { destruct (Bmult mode_NE (Bopp x) (Bopp y)); try reflexivity. rewrite H, H0 in D2. discriminate. }
    apply fin_eq.
    * unfold finite. etransitivity; [exact D2|]. now rewrite H, H0.
    * unfold finite. etransitivity; [exact C2|]. now rewrite H, H0.
    * exact (eq_trans D1 (eq_sym C1)).
    * etransitivity; [exact (D3 N2)|]. rewrite (Bsign_Bopp _ _ x), (Bsign_Bopp _ _ y).
      -- etransitivity; [|symmetry; exact (C3 N1)]. now destruct (Bsign x), (Bsign y).
      -- destruct y; try reflexivity; discriminate.
      -- destruct x; try reflexivity; discriminate.
  + apply B2SF_eq. etransitivity; [exact D|]. etransitivity; [|symmetry; exact C].
    f_equal. rewrite (Bsign_Bopp _ _ x), (Bsign_Bopp _ _ y).
    -- now destruct (Bsign x), (Bsign y).
    -- destruct y; try reflexivity; discriminate.
    -- destruct x; try reflexivity; discriminate.
Qed.

Lemma sq_pm x y : pm x y -> nsq x = nsq y.
Proof. intros [->| ->]; [reflexivity|]. apply mul_opp. Qed.

Lemma div_pm x y z : pm x y -> pm (ndiv x z) (ndiv y z).
Proof.
  intros [->| ->]; [apply pm_refl|].
  fcase z.
  2:{ destruct y; left; reflexivity. }
  2:{ destruct y as [s'|s'| |s' m' e' B']; try destruct s'; destruct s; try (left; reflexivity); try (right; reflexivity). }
  destruct (fin_cases z H) as [(sz & ->)|Hz].
  { destruct y as [s'|s'| |s' m' e' B']; try destruct s'; destruct sz; try (left; reflexivity); try (right; reflexivity). }
  assert (Nz : val z <> 0).
  { intros Z. destruct (val_zero z H Z) as (s & ->). discriminate. }
  fcase y.
  2:{ left; reflexivity. }
  2:{ destruct z as [s'|s'| |s' m' e' B']; try discriminate; destruct s, s'; (left; reflexivity) || (right; reflexivity). }
  pose proof (Bdiv_correct 53 1024 _ _ mode_NE y z Nz) as C.
  pose proof (Bdiv_correct 53 1024 _ _ mode_NE (nopp y) z Nz) as D.
  change (B2R (nopp y)) with (val (nopp y)) in D. rewrite val_opp in D. fold (val y) (val z) in *.
  replace (- val y / val z) with (- (val y / val z)) in D by (unfold Rdiv; ring).
  fold (rnd (val y / val z)) in C. fold (rnd (- (val y / val z))) in D. rewrite rnd_opp, Rabs_Ropp in D.
  destruct Rlt_bool.
  + destruct C as (C1 & C2 & _). destruct D as (D1 & D2 & _).
    apply pm_opp_val.
    * unfold finite. etransitivity; [exact D2|]. change (nopp y) with (Bopp y). now rewrite is_finite_Bopp.
    * unfold finite. now etransitivity; [exact C2|].
    * assert (D1' : val (ndiv (nopp y) z) = - rnd (val y / val z)) by exact D1.
      assert (C1' : val (ndiv y z) = rnd (val y / val z)) by exact C1. lra.
  + rewrite overflow_NE in *. apply SF_inf in C. apply SF_inf in D.
    change (ndiv y z) with (Bdiv mode_NE y z). change (ndiv (nopp y) z) with (Bdiv mode_NE (nopp y) z).
    rewrite C, D. apply pm_inf.
Qed.
