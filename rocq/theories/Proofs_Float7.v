(* spatial_correlation, find_ellipse and covar_xyt_pv in double precision *)
From Coq Require Import ZArith List Bool Reals Lra Lia.
From Flocq Require Import Core.Core IEEE754.BinarySingleNaN.
From Verif Require Import Num Np NumFacts Float Spec_Float Utilities Finders Stats
  Proofs_Float1 Proofs_Float2 Proofs_Float3 Proofs_Float6.
Import ListNotations.
Local Open Scope R_scope.

Lemma sq_sub (a b : f64) : nsq (nsub a b) = nsq (nsub b a).
Proof. apply sq_pm, sub_pm. Qed.

(* results equal, or two numbers equal up to the sign *)
Definition rpm (x y : res f64) : Prop :=
  match x, y with
  | Ok a, Ok b => pm a b
  | Raise e, Raise e' => e = e'
  | _, _ => False
  end.
Lemma pydiv_pm x y z : pm x y -> rpm (pydiv x z) (pydiv y z).
Proof. intros P. unfold pydiv. destruct (neqb z _); [reflexivity|]. now apply div_pm. Qed.

Lemma spatial_sym (lo1 lo2 el la1 la2 ea d1 d2 eg phi p1 p2 : f64) :
  spatial_correlation lo2 lo1 el la2 la1 ea d2 d1 eg phi p2 p1
  = spatial_correlation lo1 lo2 el la1 la2 ea d1 d2 eg phi p1 p2.
Proof.
  unfold spatial_correlation. rewrite (sq_sub lo2), (sq_sub la2), (sq_sub d2).
  destruct (pydiv _ (nsq el)) as [a|]; [|reflexivity]. cbn [bind].
  destruct (pydiv _ (nsq ea)) as [b|]; [|reflexivity]. cbn [bind].
  destruct (pydiv _ (nsq eg)) as [c|]; [|reflexivity]. cbn [bind].
  rewrite (andb_comm (negb (neqb p2 _))). destruct (negb _ && negb _); [|reflexivity].
  rewrite (add_comm (nsq p1) (nsq p2)).
  pose proof (pydiv_pm _ _ (nsqrt (nadd (nsq p2) (nsq p1))) (sub_pm p1 p2)) as P.
  destruct (pydiv (nsub p1 p2) _) as [x|], (pydiv (nsub p2 p1) _) as [y|]; cbn in P; try contradiction;
    [|now subst].
  cbn [bind]. pose proof (pydiv_pm _ _ phi P) as Q.
  destruct (pydiv x phi) as [x'|], (pydiv y phi) as [y'|]; cbn in Q; try contradiction; [|now subst].
  cbn [bind]. now rewrite (sq_pm _ _ Q).
Qed.

Lemma ellipse_sym (lo1 lo2 sl la1 la2 sa phi p1 p2 : f64) :
  find_ellipse lo2 lo1 sl la2 la1 sa phi p2 p1 = find_ellipse lo1 lo2 sl la1 la2 sa phi p1 p2.
Proof.
  unfold find_ellipse. rewrite (sq_sub lo2), (sq_sub la2).
  rewrite (andb_comm (negb (neqb p2 _))). destruct (negb _ && negb _); [|reflexivity].
  rewrite (add_comm (nsq p1) (nsq p2)).
  pose proof (pydiv_pm _ _ (nsqrt (nadd (nsq p2) (nsq p1))) (sub_pm p1 p2)) as P.
  destruct (pydiv (nsub p1 p2) _) as [x|], (pydiv (nsub p2 p1) _) as [y|]; cbn in P; try contradiction;
    [|now subst].
  cbn [bind]. pose proof (pydiv_pm _ _ phi P) as Q.
  destruct (pydiv x phi) as [x'|], (pydiv y phi) as [y'|]; cbn in Q; try contradiction; [|now subst].
  cbn [bind]. now rewrite (sq_pm _ _ Q).
Qed.

(* ---- signs and NaN ---- *)
Definition nneg (x : f64) : Prop := nleb (nofZ 0) x = true.

Lemma nonneg_cases x : nneg x <-> nonneg x.
Proof.
  unfold nneg, nonneg. destruct (k_ok 0 ltac:(lia)) as (F0 & E0). fcase x.
  - rewrite (le_finite _ _ F0 H), E0. rewrite Rleb_true. split; [tauto|].
    intros [(_ & L)|E]; [exact L|]. subst. discriminate.
  - split; [discriminate|]. intros [(F & _)|E]; discriminate.
  - destruct s; split; try discriminate.
    + intros [(F & _)|E]; discriminate.
    + now right.
    + reflexivity.
Qed.

Lemma sq_nonneg (x : f64) : nisnan x = false -> nneg (nsq x).
Proof.
  intros N. apply nonneg_cases. fcase x.
  - pose proof (Bmult_correct 53 1024 _ _ mode_NE x x) as C. fold (val x) in C.
    destruct Rlt_bool.
    + destruct C as (C1 & C2 & _). left. split.
      * unfold finite. etransitivity; [exact C2|]. now rewrite H.
      * change (0 <= B2R (Bmult mode_NE x x)). rewrite C1. fold (rnd (val x * val x)).
        apply (rnd_ge_Z _ 0); [lia|]. apply Rle_0_sqr.
    + right. rewrite overflow_NE in C. apply SF_inf in C. rewrite xorb_nilpotent in C. exact C.
  - discriminate.
  - destruct s; now right.
Qed.

Lemma add_nonneg (a b : f64) : nneg a -> nneg b -> nneg (nadd a b).
Proof.
  intros A B. apply nonneg_cases in A. apply nonneg_cases in B. apply nonneg_cases.
  destruct A as [(Fa & La)| ->], B as [(Fb & Lb)| ->]; try (right; reflexivity).
  - pose proof (Bplus_correct 53 1024 _ _ mode_NE a b Fa Fb) as C. fold (val a) (val b) in C.
    fold (rnd (val a + val b)) in C. destruct Rlt_bool.
    + destruct C as (C1 & C2 & _). left. split; [exact C2|].
      assert (C1' : val (nadd a b) = rnd (val a + val b)) by exact C1. rewrite C1'.
      apply (rnd_ge_Z _ 0); [lia|]. lra.
    + destruct C as (C1 & C2). rewrite overflow_NE in C1. apply SF_inf in C1. right.
      etransitivity; [exact C1|]. f_equal.
      destruct (Bsign a) eqn:Sa; [|reflexivity]. exfalso.
      destruct a as [sa|sa| |sa ma ea Ba]; try discriminate; destruct b as [sb|sb| |sb mb eb Bb]; try discriminate;
        cbn in Sa, C2; subst; try discriminate.
      apply Rle_not_lt in La. apply La. apply F2R_lt_0. reflexivity.
  - right. destruct a as [sa|sa| |sa ma ea Ba]; try discriminate; reflexivity.
  - right. destruct b as [sb|sb| |sb mb eb Bb]; try discriminate; reflexivity.
Qed.

Lemma opp_nonpos (x : f64) : nneg x -> nleb (nopp x) (nofZ 0) = true.
Proof.
  intros N. apply nonneg_cases in N. destruct N as [(F & L)| ->]; [|reflexivity].
  destruct (k_ok 0 ltac:(lia)) as (F0 & E0).
  rewrite le_finite, val_opp, E0; [apply Rleb_true; lra| |exact F0].
  unfold finite. change (nopp x) with (Bopp x). now rewrite is_finite_Bopp.
Qed.

Lemma sub_notnan (a b : f64) : finite a -> finite b -> nisnan (nsub a b) = false.
Proof.
  intros Fa Fb. pose proof (Bminus_correct 53 1024 _ _ mode_NE a b Fa Fb) as C.
  change (nisnan (nsub a b)) with (is_nan (Bminus mode_NE a b)).
  destruct Rlt_bool.
  - destruct C as (_ & C & _). destruct (Bminus mode_NE a b); try reflexivity; discriminate.
  - destruct C as (C & _). rewrite overflow_NE in C. apply SF_inf in C. now rewrite C.
Qed.

Lemma div_notnan (a b : f64) : nisnan a = false -> finite b -> val b <> 0 -> nisnan (ndiv a b) = false.
Proof.
  intros Na Fb Nb. destruct (fin_cases b Fb) as [(s & ->)|Hb]; [now elim Nb|].
  fcase a.
  - pose proof (Bdiv_correct 53 1024 _ _ mode_NE a b Nb) as C.
    change (nisnan (ndiv a b)) with (is_nan (Bdiv mode_NE a b)). destruct Rlt_bool.
    + destruct C as (_ & C & _). rewrite H in C. destruct (Bdiv mode_NE a b); try reflexivity; discriminate.
    + rewrite overflow_NE in C. apply SF_inf in C. now rewrite C.
  - discriminate.
  - destruct b as [sb|sb| |sb mb eb Bb]; try discriminate. reflexivity.
Qed.

Lemma term_nonneg (a b s : f64) : finite a -> finite b -> finite s -> val s <> 0 ->
  nneg (nsq (ndiv (nsub a b) s)).
Proof. intros. apply sq_nonneg, div_notnan; auto. now apply sub_notnan. Qed.

Lemma zero_nonneg : nneg (nofZ 0). Proof. reflexivity. Qed.

(* x - x is +0 *)
Lemma sub_self (x : f64) : finite x -> nsub x x = B754_zero false.
Proof.
  intros F. pose proof (Bminus_correct 53 1024 _ _ mode_NE x x F F) as C. fold (val x) in C.
  replace (val x - val x) with 0 in C by ring. fold (rnd 0) in C. rewrite rnd_0, Rabs_R0 in C.
  rewrite Rlt_bool_true in C by apply bpow_gt_0. destruct C as (C1 & C2 & C3).
  rewrite Rcompare_Eq in C3 by reflexivity.
  destruct (val_zero (Bminus mode_NE x x) C2 C1) as (s & E).
  change (nsub x x) with (Bminus mode_NE x x). rewrite E in *. cbn in C3. subst s.
  now destruct (Bsign x).
Qed.

Lemma term_self (x s : f64) : finite x -> finite s -> val s <> 0 ->
  nsq (ndiv (nsub x x) s) = B754_zero false.
Proof.
  intros F Fs Ns. rewrite sub_self by exact F.
  destruct (fin_cases s Fs) as [(z & ->)|Hs]; [now elim Ns|].
  destruct s as [z|z| |z m e B]; try discriminate. now destruct z.
Qed.

(* ---- covar_xyt_pv ---- *)
Lemma Ok_inj {A} (a b : A) : Ok a = Ok b -> a = b.
Proof. now intros [= E]. Qed.
Section Covar.
  Context `{NumT f64}.

  Lemma covar_transposed (p1 p2 : list (point f64)) la lo age phi use m :
    covar_xyt_pv p1 p2 la lo age phi use = Ok m ->
    exists m', covar_xyt_pv p2 p1 la lo age phi use = Ok m' /\ forall i j, m' j i = m i j.
  Proof.
    unfold covar_xyt_pv. destruct (Z.eqb use 1).
    - destruct (pv_points p1) as [v1|e1]; [|discriminate]. cbn [bind].
      destruct (pv_points p2) as [v2|e2]; [|discriminate]. cbn [bind]. intros E. apply Ok_inj in E. subst m.
      eexists. split; [reflexivity|]. intros i j. cbv beta.
      rewrite (sq_pm _ _ (div_pm _ _ lo (sub_pm (p_lat (nth j p2 dpoint)) (p_lat (nth i p1 dpoint))))).
      rewrite (sq_pm _ _ (div_pm _ _ la (sub_pm (p_long (nth j p2 dpoint)) (p_long (nth i p1 dpoint))))).
      rewrite (sq_pm _ _ (div_pm _ _ age (sub_pm (p_date (nth j p2 dpoint)) (p_date (nth i p1 dpoint))))).
      rewrite (add_comm (nsq (nth j v2 nnan))).
      rewrite (sq_pm _ _ (div_pm _ _ phi (div_pm _ _ (nsqrt (nadd (nsq (nth i v1 nnan)) (nsq (nth j v2 nnan))))
                 (sub_pm (nth j v2 nnan) (nth i v1 nnan))))).
      reflexivity.
    - intros E. apply Ok_inj in E. subst m. eexists. split; [reflexivity|]. intros i j. cbv beta.
      rewrite (sq_pm _ _ (div_pm _ _ lo (sub_pm (p_lat (nth j p2 dpoint)) (p_lat (nth i p1 dpoint))))).
      rewrite (sq_pm _ _ (div_pm _ _ la (sub_pm (p_long (nth j p2 dpoint)) (p_long (nth i p1 dpoint))))).
      rewrite (sq_pm _ _ (div_pm _ _ age (sub_pm (p_date (nth j p2 dpoint)) (p_date (nth i p1 dpoint))))).
      reflexivity.
  Qed.

  Lemma covar_range (p1 p2 : list (point f64)) la lo age phi m :
    good_scale la -> good_scale lo -> good_scale age -> Forall good_point p1 -> Forall good_point p2 ->
    covar_xyt_pv p1 p2 la lo age phi 0 = Ok m ->
    forall i j, (i < length p1)%nat -> (j < length p2)%nat ->
    exists t, nonneg t /\ m i j = nexp (nopp t)
      /\ (nth i p1 dpoint = nth j p2 dpoint -> t = B754_zero false).
  Proof.
    intros (Fla & Nla) (Flo & Nlo) (Fag & Nag) G1 G2 E i j Hi Hj.
    assert (Z : neqb age (nofZ 0) = false).
    { destruct (k_ok 0 ltac:(lia)) as (F0 & E0). rewrite (eq_finite age (nofZ 0) Fag F0), E0.
      unfold Reqb. destruct (Req_EM_T (val age) 0); [contradiction|reflexivity]. }
    unfold covar_xyt_pv in E. cbn [Z.eqb] in E. rewrite Z in E. apply Ok_inj in E. subst m. cbv beta.
    eexists. split; [|split; [reflexivity|]].
    - rewrite Forall_forall in G1, G2.
      destruct (G1 _ (nth_In _ dpoint Hi)) as (A1 & A2 & A3).
      destruct (G2 _ (nth_In _ dpoint Hj)) as (B1 & B2 & B3).
      apply nonneg_cases. apply add_nonneg; [apply add_nonneg; [apply add_nonneg|]|apply zero_nonneg]; apply term_nonneg; assumption.
    - intros <-. rewrite Forall_forall in G1. destruct (G1 _ (nth_In _ dpoint Hi)) as (A1 & A2 & A3).
      rewrite !term_self by assumption. reflexivity.
  Qed.
End Covar.
