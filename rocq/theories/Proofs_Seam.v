(* The longitudes of the float and of the casts around Greenwich *)
From Coq Require Import ZArith List Bool Reals Lra Lia.
From Verif Require Import Num NumFacts Utilities MapProfile Spec_Utilities Spec_Seam Proofs_Utilities2.
Import ListNotations.
Local Open Scope R_scope.

Lemma norm_range r : -360 <= r < 360 -> 0 <= norm1 r < 360 /\ same_meridian r (norm1 r).
Proof.
  intros H. unfold norm1. destruct (Rltb r 0) eqn:E.
  - apply Rltb_true in E. split; [lra|]. exists 1%Z. lra.
  - apply Rltb_false in E. split; [lra|]. exists 0%Z. lra.
Qed.
Lemma meridian_unique a b : same_meridian a b -> 0 <= a < 360 -> forall k : Z, 360 * IZR k <= b < 360 * IZR k + 360 -> b = a + 360 * IZR k.
Proof.
  intros (m & ->) Ha k Hk. enough (m = k) by (subst; lra).
  assert (A1 : IZR m < IZR (k + 1)) by (rewrite plus_IZR; lra). assert (A2 : IZR k < IZR (m + 1)) by (rewrite plus_IZR; lra).
  apply lt_IZR in A1, A2. lia.
Qed.
Lemma meridian_sym_trans a b c : same_meridian a b -> same_meridian a c -> same_meridian b c.
Proof. intros (k & ->) (m & ->). exists (m - k)%Z. rewrite minus_IZR. lra. Qed.

(* the position modulo 360 *)
Lemma norm_of l x r : recorded_as l x r -> forall k : Z, 360 * IZR k <= x < 360 * IZR k + 360 -> norm1 r = x - 360 * IZR k.
Proof.
  intros (_ & M & HR) k Hk. destruct (norm_range r HR) as [N M'].
  rewrite (meridian_unique (norm1 r) x (meridian_sym_trans _ _ _ M' M) N k Hk). lra.
Qed.

(* x - 20 and x + 30 of the column of the float *)
Lemma columns_of l : 0 <= l < 360 -> exists k : Z, (0 <= k <= 36)%Z /\ 10 * IZR k <= l + 1 / 100 < 10 * IZR k + 10 /\
  forall x, in_columns l x -> 10 * IZR k - 20 <= x <= 10 * IZR k + 30.
Proof.
  intros H. exists (up ((l + 1 / 100) / 10) - 1)%Z. destruct (archimed ((l + 1 / 100) / 10)) as [A B]. set (k := (up _ - 1)%Z).
  assert (E : IZR k = IZR (up ((l + 1 / 100) / 10)) - 1) by (unfold k; rewrite minus_IZR; lra).
  assert (C : 10 * IZR k <= l + 1 / 100 < 10 * IZR k + 10) by lra. split; [|split; [exact C|]].
  - assert (A1 : IZR (-1) < IZR k) by lra. assert (A2 : IZR k < IZR 37) by lra. apply lt_IZR in A1, A2. lia.
  - intros x (j & Hj & Hx). enough (j = k) by (subst; lra).
    assert (A1 : IZR j < IZR (k + 1)) by (rewrite plus_IZR; lra). assert (A2 : IZR k < IZR (j + 1)) by (rewrite plus_IZR; lra).
    apply lt_IZR in A1, A2. lia.
Qed.

Definition floatR (ws : list R) (l : R) : R := if existsb (fun w => Rltb 360 w) ws && Rleb 0 l && Rleb l 20 then l + 360 else l.
Lemma wrap_float_R ws l : wrap_float (map Fin ws) (Fin l) = Fin (floatR ws l).
Proof.
  unfold wrap_float, floatR. assert (E : existsb (fun x : XR => nltb (nofZ 360) x) (map Fin ws) = existsb (fun w => Rltb 360 w) ws).
  { induction ws as [|w ws IH]; [reflexivity|]. cbn [map existsb]. rewrite IH. reflexivity. }
  rewrite E. change (nleb (Num := XR_Num) (nofZ 0) (Fin l)) with (Rleb 0 l). change (nleb (Num := XR_Num) (Fin l) (nofZ 20)) with (Rleb l 20).
  destruct (_ && _ && _); reflexivity.
Qed.

Lemma exists_dec {A} (P : A -> Prop) (l : list A) : (forall a, {P a} + {~ P a}) -> (exists a, In a l /\ P a) \/ forall a, In a l -> ~ P a.
Proof.
  intros D. induction l as [|a l [IH|IH]].
  - right. intros a [].
  - left. destruct IH as (b & H1 & H2). exists b. split; [now right|exact H2].
  - destruct (D a) as [Y|N]; [left; exists a; split; [now left|exact Y]|right]. intros b [<-|Hb]; auto.
Qed.

Lemma Forall2_in_l {A B} (P : A -> B -> Prop) l l' : Forall2 P l l' -> forall a, In a l -> exists b, In b l' /\ P a b.
Proof. induction 1 as [|a b l l' H F IH]; intros x []; [subst; exists b; split; [now left|exact H]|]. destruct (IH x) as (y & Hy & HP); auto. exists y. split; [now right|exact HP]. Qed.
Lemma Forall2_in_r {A B} (P : A -> B -> Prop) l l' : Forall2 P l l' -> forall b, In b l' -> exists a, In a l /\ P a b.
Proof. induction 1 as [|a b l l' H F IH]; intros x []; [subst; exists a; split; [now left|exact H]|]. destruct (IH x) as (y & Hy & HP); auto. exists y. split; [now right|exact HP]. Qed.

Lemma existsb_false {A} (p : A -> bool) l : (forall a, In a l -> p a = false) -> existsb p l = false.
Proof. induction l as [|a l IH]; intros HL; [reflexivity|]. cbn. rewrite (HL a (or_introl eq_refl)). apply IH. intros b Hb. apply HL. now right. Qed.
Lemma existsb_true {A} (p : A -> bool) l a : In a l -> p a = true -> existsb p l = true.
Proof. intros H1 H2. apply existsb_exists. eauto. Qed.

(* the wrapped longitudes, by the place of the casts: [off] is what is added to x *)
Lemma map_off {A B} (P : A -> B -> Prop) (f g : A -> B -> R) la lb : Forall2 P la lb -> (forall a b, In a la -> In b lb -> P a b -> f a b = g a b) ->
  map (fun q => f (fst q) (snd q)) (combine la lb) = map (fun q => g (fst q) (snd q)) (combine la lb).
Proof.
  induction 1 as [|a b la lb H F IH]; intros HE; [reflexivity|]. cbn. rewrite HE by (auto; now left). f_equal. apply IH. intros a' b' H1 H2. apply HE; now right.
Qed.
Lemma combine_fst {A B} (P : A -> B -> Prop) (f : A -> R) la lb : Forall2 P la lb -> map (fun q => f (fst q)) (combine la lb) = map f la.
Proof. induction 1; [reflexivity|]. cbn. now rewrite IHForall2. Qed.
Lemma combine_snd {A B} (P : A -> B -> Prop) (f : B -> R) la lb : Forall2 P la lb -> map (fun q => f (snd q)) (combine la lb) = map f lb.
Proof. induction 1; [reflexivity|]. cbn. now rewrite IHForall2. Qed.

Section Seam.
  Variable l : R.
  Hypothesis Hl : 0 <= l < 360.
  Variables xs rs : list R.
  Hypothesis HF : Forall2 (recorded_as l) xs rs.
  Notation ws := (wrapR rs).

  Lemma places x r : In x xs -> In r rs -> recorded_as l x r ->
    (x < 0 -> l <= 20 /\ -20 <= x /\ norm1 r = x + 360) /\ (0 <= x < 360 -> norm1 r = x) /\ (360 <= x -> 329 < l /\ x <= 390 /\ norm1 r = x - 360).
  Proof.
    intros _ _ HR. destruct (columns_of l Hl) as (k & Hk & HB & HC). pose proof (HC x (proj1 HR)) as HX. split; [|split].
    - intros H. assert (A1 : IZR k < IZR 2) by lra. apply lt_IZR in A1. assert (A2 : IZR k <= IZR 1) by (apply IZR_le; lia). assert (A3 : IZR 0 <= IZR k) by (apply IZR_le; lia).
      split; [lra|]. split; [lra|]. rewrite (norm_of l x r HR (-1)) by lra. lra.
    - intros H. rewrite (norm_of l x r HR 0) by lra. lra.
    - intros H. assert (A1 : IZR 32 < IZR k) by lra. apply lt_IZR in A1. assert (A2 : IZR 33 <= IZR k) by (apply IZR_le; lia). assert (A3 : IZR k <= IZR 36) by (apply IZR_le; lia).
      split; [lra|]. split; [lra|]. rewrite (norm_of l x r HR 1) by lra. lra.
  Qed.
  Lemma spread x y : In x xs -> In y xs -> x - y <= 50.
  Proof.
    intros Hx Hy. destruct (columns_of l Hl) as (k & _ & _ & HC).
    destruct (Forall2_in_l _ _ _ HF x Hx) as (r & _ & HR). destruct (Forall2_in_l _ _ _ HF y Hy) as (r' & _ & HR').
    pose proof (HC x (proj1 HR)). pose proof (HC y (proj1 HR')). lra.
  Qed.
  Lemma near_east x : In x xs -> l <= 20 -> x <= 50 /\ ((exists y, In y xs /\ y < 0) -> x <= 40).
  Proof.
    intros Hx HL. destruct (columns_of l Hl) as (k & _ & HB & HC). destruct (Forall2_in_l _ _ _ HF x Hx) as (r & _ & HR). pose proof (HC x (proj1 HR)).
    assert (A1 : IZR k < IZR 3) by lra. apply lt_IZR in A1. assert (A2 : IZR k <= IZR 2) by (apply IZR_le; lia). split; [lra|].
    intros (y & Hy & H0). destruct (Forall2_in_l _ _ _ HF y Hy) as (r' & _ & HR'). pose proof (HC y (proj1 HR')).
    assert (B1 : IZR k < IZR 2) by lra. apply lt_IZR in B1. assert (B2 : IZR k <= IZR 1) by (apply IZR_le; lia). lra.
  Qed.

  Lemma wrap_as (f : R -> R) : (seam rs = true -> forall x r, In x xs -> In r rs -> recorded_as l x r -> (if Rleb (norm1 r) 40 then 360 + norm1 r else norm1 r) = f x) ->
    (seam rs = false -> forall x r, In x xs -> In r rs -> recorded_as l x r -> norm1 r = f x) -> ws = map f xs.
  Proof.
    intros H1 H2. unfold wrapR. destruct (seam rs).
    - rewrite <- (combine_snd _ (fun r => if Rleb (norm1 r) 40 then 360 + norm1 r else norm1 r) _ _ HF), <- (combine_fst _ f _ _ HF).
      apply (map_off (recorded_as l) (fun _ r => if Rleb (norm1 r) 40 then 360 + norm1 r else norm1 r) (fun x _ => f x)); auto.
    - rewrite <- (combine_snd _ norm1 _ _ HF), <- (combine_fst _ f _ _ HF). apply (map_off (recorded_as l) (fun _ r => norm1 r) (fun x _ => f x)); auto.
  Qed.
  Lemma seam_true x : In x xs -> x < 0 \/ 320 <= x < 360 -> seam rs = true.
  Proof.
    intros Hx H. destruct (Forall2_in_l _ _ _ HF x Hx) as (r & Hr & HR). destruct (places x r Hx Hr HR) as (P1 & P2 & _). unfold seam.
    apply (existsb_true _ _ (norm1 r)); [now apply in_map|]. apply Rleb_true. destruct H as [H|H]; [destruct (P1 H) as (_ & ? & ->); lra|rewrite P2; lra].
  Qed.
  Lemma seam_false : (forall x, In x xs -> 0 <= x /\ (x < 320 \/ 360 <= x)) -> seam rs = false.
  Proof.
    intros H. unfold seam. apply existsb_false. intros n Hn. apply in_map_iff in Hn as (r & <- & Hr). apply Rleb_false.
    destruct (Forall2_in_r _ _ _ HF r Hr) as (x & Hx & HR). destruct (places x r Hx Hr HR) as (_ & P2 & P3). destruct (H x Hx) as [H0 [H1|H1]].
    - rewrite P2; lra.
    - destruct (P3 H1) as (_ & ? & ->). lra.
  Qed.

  (* west of Greenwich with a float east of it *)
  Lemma wrap_west : (exists x, In x xs /\ x < 0) -> l <= 20 /\ ws = map (fun x => 360 + x) xs.
  Proof.
    intros E. assert (E' := E). destruct E' as (x0 & Hx0 & H0).
    assert (HL : l <= 20). { destruct (Forall2_in_l _ _ _ HF x0 Hx0) as (r & Hr & HR). now destruct (places x0 r Hx0 Hr HR) as (P & _); destruct (P H0). }
    split; [exact HL|]. apply wrap_as.
    - intros _ x r Hx Hr HR. destruct (places x r Hx Hr HR) as (P1 & P2 & _). destruct (near_east x Hx HL) as [_ NE]. specialize (NE E).
      destruct (Rlt_dec x 0) as [Hn|Hn].
      + destruct (P1 Hn) as (_ & ? & ->). destruct (Rleb (x + 360) 40) eqn:EB; [apply Rleb_true in EB; lra|lra].
      + rewrite P2 by lra. destruct (Rleb x 40) eqn:EB; [lra|apply Rleb_false in EB; lra].
    - intros S. rewrite (seam_true x0 Hx0 (or_introl H0)) in S. discriminate.
  Qed.
  (* no jump among the casts *)
  Lemma wrap_plain : (forall x, In x xs -> 0 <= x < 360) -> ws = xs.
  Proof.
    intros H. rewrite <- (map_id xs). apply wrap_as.
    - intros S x r Hx Hr HR. destruct (places x r Hx Hr HR) as (_ & P2 & _). rewrite P2 by auto. destruct (Rleb x 40) eqn:EB; [|reflexivity]. apply Rleb_true in EB. exfalso.
      destruct (exists_dec (fun y => 320 <= y) xs (fun y => Rle_dec 320 y)) as [(y & Hy & H1)|N].
      + pose proof (spread y x Hy Hx). lra.
      + rewrite seam_false in S; [discriminate|]. intros y Hy. specialize (H y Hy). specialize (N y Hy). lra.
    - intros _ x r Hx Hr HR. destruct (places x r Hx Hr HR) as (_ & P2 & _). auto.
  Qed.
  Lemma wrap_east : (exists x, In x xs /\ 360 <= x) -> 329 < l /\ (forall x, In x xs -> 310 <= x <= 390) /\
    ((exists x, In x xs /\ 320 <= x < 360) -> ws = xs) /\
    ((forall x, In x xs -> x < 320 \/ 360 <= x) -> ws = map (fun x => if Rleb 360 x then x - 360 else x) xs).
  Proof.
    intros (x0 & Hx0 & H0).
    assert (HL : 329 < l). { destruct (Forall2_in_l _ _ _ HF x0 Hx0) as (r & Hr & HR). now destruct (places x0 r Hx0 Hr HR) as (_ & _ & P); destruct (P H0). }
    assert (HX : forall x, In x xs -> 310 <= x <= 390).
    { intros x Hx. pose proof (spread x0 x Hx0 Hx). split; [lra|]. destruct (Rlt_dec x 360); [lra|].
      destruct (Forall2_in_l _ _ _ HF x Hx) as (r & Hr & HR). destruct (places x r Hx Hr HR) as (_ & _ & P). destruct P as (_ & ? & _); lra. }
    split; [exact HL|]. split; [exact HX|]. split.
    - intros (y & Hy & H1). rewrite <- (map_id xs). apply wrap_as.
      + intros _ x r Hx Hr HR. destruct (places x r Hx Hr HR) as (_ & P2 & P3). specialize (HX x Hx). destruct (Rlt_dec x 360) as [Hn|Hn].
        * rewrite P2 by lra. destruct (Rleb x 40) eqn:EB; [apply Rleb_true in EB; lra|reflexivity].
        * destruct P3 as (_ & ? & ->); [lra|]. destruct (Rleb (x - 360) 40) eqn:EB; [lra|apply Rleb_false in EB; lra].
      + intros S. rewrite (seam_true y Hy (or_intror H1)) in S. discriminate.
    - intros HN. apply wrap_as.
      + intros S. rewrite seam_false in S; [discriminate|]. intros x Hx. specialize (HX x Hx). specialize (HN x Hx). lra.
      + intros _ x r Hx Hr HR. destruct (places x r Hx Hr HR) as (_ & P2 & P3). specialize (HX x Hx). destruct (Rleb 360 x) eqn:EB.
        * apply Rleb_true in EB. now destruct (P3 EB) as (_ & _ & ->).
        * apply Rleb_false in EB. apply P2. lra.
  Qed.

  Lemma float_plain ws' : 20 < l \/ (forall w, In w ws' -> w <= 360) -> floatR ws' l = l.
  Proof.
    intros H. unfold floatR. destruct H as [H|H].
    - assert (E : Rleb l 20 = false) by (apply Rleb_false; lra). rewrite E, andb_false_r. reflexivity.
    - rewrite existsb_false; [reflexivity|]. intros w Hw. apply Rltb_false. specialize (H w Hw). lra.
  Qed.

  (* the differences of longitude are right unless all casts are beyond Greenwich *)
  Theorem seam_right ks : incl ks xs -> ~ all_beyond xs ks ->
    exists off, (off = 0 \/ off = 360) /\ ws = map (fun x => x + off) xs /\ floatR (map (fun x => x + off) ks) l = l + off.
  Proof.
    intros HK NB. destruct (exists_dec (fun x => x < 0) xs (fun x => Rlt_dec x 0)) as [W|NW].
    - destruct (wrap_west W) as [HL EW]. destruct (exists_dec (fun x => 0 < x) ks (fun x => Rlt_dec 0 x)) as [(y & Hy & H1)|NE].
      + exists 360. split; [now right|]. split; [rewrite EW; apply map_ext; intros; lra|]. unfold floatR.
        rewrite (existsb_true _ _ (y + 360)); [|apply in_map_iff; eauto|apply Rltb_true; lra].
        assert (A : Rleb 0 l = true) by (apply Rleb_true; lra). assert (B : Rleb l 20 = true) by (apply Rleb_true; lra). rewrite A, B. reflexivity.
      + exfalso. apply NB. left. split; [exact W|]. intros x Hx. specialize (NE x Hx). lra.
    - exists 0. split; [now left|]. destruct (exists_dec (fun x => 360 <= x) xs (fun x => Rle_dec 360 x)) as [E|NE].
      + destruct (wrap_east E) as (HL & HX & W1 & _). destruct (exists_dec (fun x => 320 <= x < 360) xs) as [M|NM].
        { intros a. destruct (Rle_dec 320 a); [|right; lra]. destruct (Rlt_dec a 360); [left; lra|right; lra]. }
        * split; [|rewrite float_plain; [lra|left; lra]]. rewrite (W1 M). rewrite <- (map_id xs) at 1. apply map_ext. intros; lra.
        * exfalso. apply NB. right. split; [exact E|]. intros x Hx. specialize (NM x Hx). lra.
      + assert (HP : forall x, In x xs -> 0 <= x < 360) by (intros x Hx; specialize (NW x Hx); specialize (NE x Hx); lra).
        rewrite (wrap_plain HP). split; [rewrite <- (map_id xs) at 1; apply map_ext; intros; lra|].
        rewrite float_plain; [lra|]. right. intros w Hw. apply in_map_iff in Hw as (x & <- & Hx). specialize (HP x (HK x Hx)). lra.
  Qed.
  (* otherwise some are wrong by 360 degrees *)
  Theorem seam_wrong : all_beyond xs xs -> exists n, (n < length xs)%nat /\
    Rabs ((floatR ws l - nth n ws 0) - (l - nth n xs 0)) = 360.
  Proof.
    intros [[W HN]|[E HN]].
    - destruct (wrap_west W) as [HL EW]. destruct W as (x & Hx & H0). apply (In_nth _ _ 0) in Hx as (n & Hn & EX). exists n. split; [exact Hn|].
      rewrite float_plain; [|right; intros w Hw; rewrite EW in Hw; apply in_map_iff in Hw as (y & <- & Hy); specialize (HN y Hy); lra].
      rewrite EW. rewrite (nth_indep _ 0 ((fun x => 360 + x) 0)) by (rewrite map_length; exact Hn). rewrite (map_nth (fun x => 360 + x)).
      unfold Rabs. destruct (Rcase_abs _); lra.
    - destruct (wrap_east E) as (HL & HX & _ & W2). specialize (W2 HN). destruct E as (x & Hx & H0). apply (In_nth _ _ 0) in Hx as (n & Hn & EX). exists n. split; [exact Hn|].
      rewrite float_plain by (left; lra). rewrite W2. rewrite (nth_indep _ 0 ((fun x => if Rleb 360 x then x - 360 else x) 0)) by (rewrite map_length; exact Hn).
      rewrite (map_nth (fun x => if Rleb 360 x then x - 360 else x)), EX. apply Rleb_true in H0. rewrite H0. unfold Rabs. destruct (Rcase_abs _); lra.
  Qed.
  (* both together, for the longitudes that are subtracted *)
  Theorem seam_differences : ~ all_beyond xs xs <->
    forall n, (n < length xs)%nat -> floatR ws l - nth n ws 0 = l - nth n xs 0.
  Proof.
    split.
    - intros NB n Hn. destruct (seam_right xs (incl_refl _) NB) as (off & _ & EW & EF). rewrite <- EW in EF. rewrite EF, EW.
      rewrite (nth_indep _ 0 ((fun x => x + off) 0)) by (rewrite map_length; exact Hn). rewrite (map_nth (fun x => x + off)). lra.
    - intros H B. destruct (seam_wrong B) as (n & Hn & E). rewrite (H n Hn) in E. replace (l - nth n xs 0 - (l - nth n xs 0)) with 0 in E by lra. rewrite Rabs_R0 in E. lra.
  Qed.
  (* every cast beyond Greenwich: all differences exceed 300 degrees *)
  Theorem seam_far : none_near xs -> forall w, In w ws -> 300 < Rabs (w - floatR ws l).
  Proof.
    intros [[W HN]|[NE HN]] w Hw.
    - destruct (wrap_west W) as [HL EW]. rewrite float_plain; [|right; intros v Hv; rewrite EW in Hv; apply in_map_iff in Hv as (y & <- & Hy); specialize (HN y Hy); lra].
      rewrite EW in Hw. apply in_map_iff in Hw as (x & <- & Hx). destruct (columns_of l Hl) as (k & Hk & HB & HC).
      destruct (Forall2_in_l _ _ _ HF x Hx) as (r & _ & HR). pose proof (HC x (proj1 HR)). assert (IZR 0 <= IZR k) by (apply IZR_le; lia).
      unfold Rabs. destruct (Rcase_abs _); lra.
    - assert (E : exists x, In x xs /\ 360 <= x) by (destruct xs as [|x t]; [congruence|]; exists x; split; [now left|apply HN; now left]).
      destruct (wrap_east E) as (HL & HX & _ & W2). rewrite float_plain by (left; lra). rewrite W2 in Hw by (intros x Hx; right; auto).
      apply in_map_iff in Hw as (x & <- & Hx). pose proof (HN x Hx) as H0. pose proof H0 as H0'. apply Rleb_true in H0'. rewrite H0'.
      destruct (columns_of l Hl) as (k & Hk & HB & HC). destruct (Forall2_in_l _ _ _ HF x Hx) as (r & _ & HR). pose proof (HC x (proj1 HR)).
      unfold Rabs. destruct (Rcase_abs _); lra.
  Qed.
End Seam.
