(* Variances and counterexamples in double precision *)
From Coq Require Import ZArith List Bool Reals Lra Lia.
From Flocq Require Import Core.Core IEEE754.BinarySingleNaN.
From Verif Require Import Num Np NumFacts Float Spec_Float Utilities Spec_Utilities Finders Stats
  Proofs_Float1 Proofs_Float2 Proofs_Float3 Proofs_Float6 Proofs_Float7.
Import ListNotations.
Local Open Scope R_scope.

(* ---- sums ---- *)
(* a sum of finite doubles is finite or an infinity, never NaN *)
Lemma add_notnan (a b : f64) : nisnan a = false -> finite b -> nisnan (nadd a b) = false.
Proof.
  intros Na Fb. fcase a.
  - pose proof (Bplus_correct 53 1024 _ _ mode_NE a b H Fb) as C.
    change (nisnan (nadd a b)) with (is_nan (Bplus mode_NE a b)).
    destruct Rlt_bool.
    + destruct C as (_ & C & _). destruct (Bplus mode_NE a b); try reflexivity; discriminate.
    + destruct C as (C & _). rewrite overflow_NE in C. apply SF_inf in C. now rewrite C.
  - discriminate.
  - destruct b as [sb|sb| |sb mb eb Bb]; try discriminate; reflexivity.
Qed.

Lemma sum_notnan l : forall a : f64, nisnan a = false -> Forall finite l -> nisnan (fold_left nadd l a) = false.
Proof.
  induction l as [|x l IH]; intros a Na F; [exact Na|]. inversion F; subst. cbn [fold_left].
  apply IH; [now apply add_notnan|assumption].
Qed.

Lemma sum_nneg l : forall a : f64, nneg a -> Forall nneg l -> nneg (fold_left nadd l a).
Proof.
  induction l as [|x l IH]; intros a Na F; [exact Na|]. inversion F; subst. cbn [fold_left].
  apply IH; [now apply add_nonneg|assumption].
Qed.

Lemma sub_notnan_r (a b : f64) : finite a -> nisnan b = false -> nisnan (nsub a b) = false.
Proof.
  intros Fa Nb. fcase b.
  - now apply sub_notnan.
  - discriminate.
  - destruct a as [sb|sb| |sb mb eb Bb]; try discriminate; reflexivity.
Qed.

Lemma div_nneg (a b : f64) : nneg a -> finite b -> 0 < val b -> nneg (ndiv a b).
Proof.
  intros A Fb Pb. apply nonneg_cases in A. apply nonneg_cases.
  assert (Nb : val b <> 0) by lra.
  destruct (fin_cases b Fb) as [(s & ->)|Hb]; [now elim Nb|].
  assert (Sb : Bsign b = false).
  { destruct b as [s|s| |s m e B]; try discriminate. cbn. destruct s; [|reflexivity]. exfalso.
    apply Rlt_not_le in Pb. apply Pb. left. apply F2R_lt_0. reflexivity. }
  destruct A as [(Fa & La)| ->].
  - pose proof (Bdiv_correct 53 1024 _ _ mode_NE a b Nb) as C. fold (val a) (val b) in C.
    fold (rnd (val a / val b)) in C. destruct Rlt_bool.
    + destruct C as (C1 & C2 & _). left. rewrite Fa in C2. split; [exact C2|].
      assert (C1' : val (ndiv a b) = rnd (val a / val b)) by exact C1. rewrite C1'.
      apply (rnd_ge_Z _ 0); [lia|]. apply Rmult_le_pos; [exact La|]. left. now apply Rinv_0_lt_compat.
    + rewrite overflow_NE in C. apply SF_inf in C. rewrite Sb in C. right.
      etransitivity; [exact C|]. f_equal.
      destruct (Bsign a) eqn:Sa; [|reflexivity]. exfalso.
      destruct a as [sa|sa| |sa ma ea Ba]; try discriminate.
      * destruct b as [s|s| |s m e B]; try discriminate.
      * cbn in Sa. subst. apply Rle_not_lt in La. apply La. apply F2R_lt_0. reflexivity.
  - right. destruct b as [s|s| |s m e B]; try discriminate. cbn in Sb. subst s. reflexivity.
Qed.

Lemma len_fin {A} (l : list A) : countable l -> l <> [] ->
  finite (nlen l) /\ 0 < val (nlen l).
Proof.
  intros C N. unfold nlen. destruct (ofZ_fin (Z.of_nat (length l))) as (F & E).
  { unfold countable in C. lia. }
  split; [exact F|]. rewrite E. apply IZR_lt. destruct l; [congruence|]. cbn [length]. lia.
Qed.

Lemma sub_zero_len {A} (l : list A) : countable l -> l <> [] ->
  finite (nsub (nlen l) (nofZ 0)) /\ 0 < val (nsub (nlen l) (nofZ 0)).
Proof.
  intros C N. destruct (len_fin l C N) as (F & P). destruct (k_ok 0 ltac:(lia)) as (F0 & E0).
  assert (B : Rabs (val (nlen l) - val (nofZ 0)) <= big).
  { rewrite E0. unfold nlen. rewrite (proj2 (ofZ_fin (Z.of_nat (length l)) ltac:(unfold countable in C; lia))).
    pose proof big_1000. unfold countable in C. rewrite Rminus_0_r, Rabs_pos_eq by (apply IZR_le; lia).
    apply Rle_trans with (IZR (2 ^ 53)); [apply IZR_le; lia|].
    unfold big. rewrite <- (IZR_Zpower radix2) by lia. apply IZR_le. change (2 ^ 53 <= 2 ^ 1000)%Z. apply Z.pow_le_mono_r; lia. }
  destruct (sub_fin _ _ F F0 B) as (Fs & Es). split; [exact Fs|]. rewrite Es, E0, Rminus_0_r.
  now rewrite rnd_id.
Qed.

Lemma drop_nan_finite (l : list f64) : Forall (fun x => finite x \/ nisnan x = true) l -> Forall finite (drop_nan l).
Proof.
  intros F. apply Forall_forall. intros x I. apply filter_In in I. destruct I as (I & N).
  rewrite Forall_forall in F. destruct (F x I) as [H|H]; [exact H|]. rewrite H in N. discriminate.
Qed.

Lemma signal_variance_f64 (l : list f64) : Forall (fun x => finite x \/ nisnan x = true) l -> countable l ->
  forall v, signal_variance l = Ok v -> nonneg v.
Proof.
  intros F C v E. unfold signal_variance in E. destruct (forallb nisnan l) eqn:A; [discriminate|].
  apply Ok_inj in E. subst v. apply nonneg_cases.
  pose proof (drop_nan_finite l F) as D.
  assert (N : drop_nan l <> []).
  { intros N. apply Bool.not_true_iff_false in A. apply A. apply forallb_forall. intros x I.
    destruct (nisnan x) eqn:Q; [reflexivity|]. exfalso.
    assert (I' : In x (drop_nan l)) by (apply filter_In; rewrite Q; auto). rewrite N in I'. destruct I'. }
  assert (C' : countable (drop_nan l)).
  { unfold countable in *. unfold drop_nan.
    assert (length (filter (fun x => negb (nisnan x)) l) <= length l)%nat.
    { clear. induction l as [|a l IH]; [cbn; lia|]. cbn [filter length]. destruct (negb (nisnan a)); cbn [length]; lia. }
    lia. }
  set (d := drop_nan l) in *. unfold var_ddof.
  destruct (sub_zero_len d C' N) as (Fs & Ps). apply div_nneg; [|exact Fs|exact Ps].
  apply sum_nneg; [reflexivity|]. apply Forall_map. rewrite Forall_forall. intros x I.
  apply sq_nonneg, sub_notnan_r; [rewrite Forall_forall in D; auto|].
  destruct (len_fin d C' N) as (Fn & Pn). unfold mean. apply div_notnan; [|exact Fn|lra].
  apply sum_notnan; [reflexivity|exact D].
Qed.

(* ---- noise_variance of equal salinities ---- *)
Lemma nanargmin_lt {T} `{Num T} (l : list T) : forall i b, match b with Some (k, _) => (k < i)%nat | None => True end ->
  match nanargmin_from i b l with Some (k, _) => (k < i + length l)%nat | None => True end.
Proof.
  induction l as [|x l IH]; intros i b B; cbn [nanargmin_from length].
  - destruct b as [[k ?]|]; [lia|exact I].
  - match goal with |- match nanargmin_from _ ?b' _ with _ => _ end =>
      specialize (IH (S i) b'); destruct (nanargmin_from (S i) b' l) as [[k ?]|]; [|exact I] end.
    assert (k < S i + length l)%nat; [|lia]. apply IH.
    destruct (nisnan x); [destruct b as [[? ?]|]; [lia|exact I]|].
    destruct b as [[? ?]|]; [|lia]. destruct (nltb _ _); lia.
Qed.

Lemma nsum_zeros (l : list f64) : (forall x, In x l -> x = B754_zero false) -> nsum l = B754_zero false.
Proof.
  intros A. unfold nsum. change (nofZ 0 : f64) with (B754_zero false : f64).
  induction l as [|x l IH]; [reflexivity|]. cbn [fold_left]. rewrite (A x) by now left.
  apply IH. intros; apply A; now right.
Qed.

Lemma drop_nan_none (l : list f64) : (forall x, In x l -> nisnan x = false) -> drop_nan l = l.
Proof.
  intros A. induction l as [|x l IH]; [reflexivity|]. unfold drop_nan in *. cbn [filter].
  rewrite (A x) by now left. cbn [negb]. f_equal.
  apply IH. intros; apply A; now right.
Qed.

Lemma mapM_in {A B} (f : A -> res B) l r : mapM f l = Ok r -> length r = length l
  /\ forall y, In y r -> exists x, In x l /\ f x = Ok y.
Proof.
  revert r. induction l as [|x l IH]; intros r E; cbn in E.
  - apply Ok_inj in E. subst. split; [reflexivity|intros ? []].
  - destruct (f x) as [y|] eqn:Ex; [|discriminate]. cbn in E. destruct (mapM f l) as [ys|] eqn:El; [|discriminate].
    cbn in E. apply Ok_inj in E. subst. destruct (IH ys eq_refl) as (L & P). split; [cbn; now f_equal|].
    intros z [<-|I]; [exists x; split; [now left|exact Ex]|]. destruct (P z I) as (w & W & Q).
    exists w. split; [now right|exact Q].
Qed.

Lemma noise_variance_f64 (casts : list (obs f64)) (s : f64) : finite s -> countable casts ->
  Forall (fun c => o_sal c = s) casts ->
  forall v, noise_variance casts = Ok v -> v = B754_zero false.
Proof.
  intros F C A v E. unfold noise_variance in E. rewrite Forall_forall in A.
  assert (N : casts = [] \/ casts <> []) by (destruct casts; [now left|right; discriminate]).
  destruct N as [->|N]; [cbn in E; apply Ok_inj in E; now subst|].
  destruct (forallb _ _); [apply Ok_inj in E; now subst|].
  match type of E with context [mapM nanargmin ?d] => destruct (mapM nanargmin d) as [idx|] eqn:M end; [|discriminate].
  cbn [bind] in E. apply Ok_inj in E. subst v. destruct (mapM_in _ _ _ M) as (L & Q). rewrite !map_length in L.
  set (noise := map (fun p => nsub (o_sal (fst p)) (o_sal (nth (snd p) casts (mkObs nnan nnan nnan)))) (combine casts idx)).
  assert (Z : forall x, In x (map nsq noise) -> x = B754_zero false).
  { intros x I. apply in_map_iff in I. destruct I as (y & <- & I). unfold noise in I. apply in_map_iff in I.
    destruct I as ((c & k) & <- & I). cbn [fst snd].
    assert (Hk : (k < length casts)%nat).
    { destruct (Q k (in_combine_r _ _ _ _ I)) as (row & R1 & R2).
      apply in_map_iff in R1. destruct R1 as (row0 & <- & R1). apply in_map_iff in R1. destruct R1 as (c0 & <- & _).
      unfold nanargmin in R2. pose proof (nanargmin_lt (map (fun d : f64 => if neqb d (nofZ 0) then nnan else d) (map (sqdist c0) casts)) 0 None Logic.I) as B.
      destruct (nanargmin_from _ _ _) as [[j ?]|]; [|discriminate]. apply Ok_inj in R2. subst j.
      rewrite !map_length in B. exact B. }
    rewrite (A c (in_combine_l _ _ _ _ I)), (A _ (nth_In _ _ Hk)), sub_self by exact F. reflexivity. }
  unfold nanmean. rewrite drop_nan_none by (intros x I; rewrite (Z x I); reflexivity).
  unfold mean. rewrite nsum_zeros by exact Z.
  assert (G : nlen (map nsq noise) = nlen casts).
  { unfold nlen. rewrite map_length. unfold noise. rewrite map_length, combine_length, L, Nat.min_id. reflexivity. }
  rewrite G. destruct (len_fin casts C N) as (Fn & Pn).
  destruct (nlen casts) as [b|b| |b m e B]; try discriminate.
  - exfalso. cbn in Pn. lra.
  - destruct b; [|reflexivity]. exfalso. apply Rlt_not_le in Pn. apply Pn. left. apply F2R_lt_0. reflexivity.
Qed.
