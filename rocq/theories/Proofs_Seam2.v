(* find_besthist depends on the longitudes through their differences only *)
From Coq Require Import ZArith List Bool Reals Lra Lia.
From Verif Require Import Num Np NumFacts NpFacts Utilities Finders.
Import ListNotations.

Section Shift.
  Context {T : Type} {N : Num T} {NT : NumT T} {rng : Type}.
  Variable seed : Z -> rng.
  Variable rand : rng -> nat -> list T * rng.
  Variable qs : list T -> list nat.
  Variables lat long long' date z : T.
  Variables latL latS longL longS phiL phiS ageL ageS : T.
  Variable use : Z.
  Hypothesis Hnan : nsub nnan long = nsub nnan long'.

  Definition alike (c c' : cast T) : Prop :=
    c_lat c = c_lat c' /\ c_date c = c_date c' /\ c_z c = c_z c' /\ nsub (c_long c) long = nsub (c_long c') long'.

  Lemma alike_d : alike dcast dcast.
  Proof. repeat split. exact Hnan. Qed.
  Lemma alike_nth l l' : Forall2 alike l l' -> forall i, alike (nth i l dcast) (nth i l' dcast).
  Proof. induction 1 as [|a b l l' H F IH]; intros [|i]; cbn [nth]; try apply alike_d; auto. Qed.
  Lemma alike_take l l' ix : Forall2 alike l l' -> Forall2 alike (take dcast l ix) (take dcast l' ix).
  Proof. intros H. unfold take. induction ix as [|i ix IH]; cbn; constructor; [now apply alike_nth|exact IH]. Qed.
  Lemma alike_length l l' : Forall2 alike l l' -> length l = length l'.
  Proof. induction 1; cbn; congruence. Qed.
  Lemma alike_mapM {B} (f g : cast T -> res B) l l' : Forall2 alike l l' -> (forall a b, alike a b -> f a = g b) -> mapM f l = mapM g l'.
  Proof. intros H E. induction H as [|a b l l' H F IH]; [reflexivity|]. cbn [mapM]. now rewrite (E a b H), IH. Qed.
  Lemma alike_vectorize {B} (f g : cast T -> res B) l l' : Forall2 alike l l' -> (forall a b, alike a b -> f a = g b) -> vectorize f l = vectorize g l'.
  Proof. intros H E. unfold vectorize. pose proof (alike_mapM f g l l' H E) as EM. destruct H; [reflexivity|exact EM]. Qed.
  Lemma alike_pairs {B} (f g : cast T * T -> res B) l l' : Forall2 alike l l' -> (forall a b p, alike a b -> f (a, p) = g (b, p)) ->
    forall ps, vectorize f (combine l ps) = vectorize g (combine l' ps).
  Proof.
    intros H E. assert (EM : forall ps, mapM f (combine l ps) = mapM g (combine l' ps)).
    { induction H as [|a b l l' H F IH]; intros [|p ps]; try reflexivity. cbn [combine mapM]. now rewrite (E a b p H), IH. }
    intros ps. specialize (EM ps). unfold vectorize. destruct H; [reflexivity|]. destruct ps; [reflexivity|exact EM].
  Qed.
  Lemma alike_pv l l' : Forall2 alike l l' -> pv_casts use l = pv_casts use l'.
  Proof.
    intros H. unfold pv_casts. destruct (use_pv use).
    - apply alike_vectorize; [exact H|]. intros a b (E1 & _ & E3 & _). now rewrite E1, E3.
    - f_equal. induction H; cbn; congruence.
  Qed.
  Lemma alike_corr so sa sg sp pvf l l' : Forall2 alike l l' ->
    correlations lat long date use so sa sg sp pvf l = correlations lat long' date use so sa sg sp pvf l'.
  Proof.
    intros H. unfold correlations. rewrite (alike_pv l l' H). destruct (pv_casts use l') as [pvh|]; [|reflexivity]. cbn [bind].
    apply alike_pairs; [exact H|]. intros a b p (E1 & E2 & _ & E4). cbn [fst snd]. unfold spatial_correlation. now rewrite E1, E2, E4.
  Qed.
  Lemma alike_ellipse l l' : Forall2 alike l l' ->
    ellipse_index lat long z latL longL phiL use l = ellipse_index lat long' z latL longL phiL use l'.
  Proof.
    intros H. unfold ellipse_index. rewrite (alike_pv l l' H). destruct (pv_float _ _ _) as [pvf|]; [|reflexivity]. cbn [bind].
    destruct (pv_casts use l') as [pvh|]; [|reflexivity]. cbn [bind].
    erewrite alike_pairs; [reflexivity|exact H|]. intros a b p (E1 & _ & _ & E4). cbn [fst snd]. unfold find_ellipse. now rewrite E1, E4.
  Qed.
  Theorem besthist_shift l l' m g0 : Forall2 alike l l' ->
    find_besthist seed rand qs lat long date z latL latS longL longS phiL phiS ageL ageS use l m g0 =
    find_besthist seed rand qs lat long' date z latL latS longL longS phiL phiS ageL ageS use l' m g0.
  Proof.
    intros H. unfold find_besthist. rewrite (alike_ellipse l l' H). destruct (ellipse_index _ _ _ _ _ _ _ _) as [[pvf ie]|]; [|reflexivity].
    destruct (Z.ltb m _); [|reflexivity]. unfold besthist_select. cbv zeta. destruct (Z.ltb (ceil3 m) 0); [reflexivity|].
    destruct (rand _ _) as [draws g2]. set (ir := filter _ (seq 0 _)).
    pose proof (alike_take _ _ ir (alike_take _ _ ie H)) as H1.
    rewrite (alike_corr longL latL ageL phiL pvf _ _ H1). destruct (correlations lat long' date use longL latL ageL phiL pvf _) as [cl|]; [|reflexivity]. cbn [bind].
    pose proof (alike_take _ _ (qs cl) H1) as H2. rewrite (alike_length _ _ H2).
    match goal with |- context [correlations lat long' date use longS latS ageS phiS pvf (take dcast ?r ?ix)] => set (iz := ix); pose proof (alike_take _ _ iz H2) as H3 end.
    rewrite (alike_corr longS latS ageS phiS pvf _ _ H3). reflexivity.
  Qed.
End Shift.

(* a cast far away in longitude is never inside the ellipse *)
Lemma xsq_nonneg (x : XR) : nsq x = NaN \/ nsq x = PInf \/ exists r, nsq x = Fin r /\ (0 <= r)%R.
Proof.
  destruct x as [r| | |]; cbn.
  - right; right. exists (r * r)%R. split; [reflexivity|]. pose proof (Rle_0_sqr r) as Q. unfold Rsqr in Q. exact Q.
  - auto.
  - auto.
  - auto.
Qed.
Lemma xdiv_nonneg (a b c : XR) : (a = NaN \/ a = PInf \/ exists r, a = Fin r /\ (0 <= r)%R) -> (b = NaN \/ b = PInf \/ exists r, b = Fin r /\ (0 <= r)%R) ->
  pydiv a b = Ok c -> c = NaN \/ c = PInf \/ exists r, c = Fin r /\ (0 <= r)%R.
Proof.
  intros Ha Hb. unfold pydiv. cbn. destruct (xeqb b (Fin 0)) eqn:EB; [discriminate|]. intros E. assert (E' : c = xdiv a b) by congruence. subst c. clear E.
  destruct Ha as [->|[->|(r & -> & Hr)]]; destruct Hb as [->|[->|(s & -> & Hs)]]; cbn; auto.
  - right; left. destruct (Rlt_dec s 0); [lra|reflexivity].
  - right; right. exists 0%R. split; [reflexivity|lra].
  - cbn in EB. apply Reqb_false in EB. destruct (Req_EM_T s 0); [contradiction|]. right; right. exists (r / s)%R. split; [reflexivity|].
    apply Rle_mult_inv_pos; lra.
Qed.
Lemma ellipse_far w f s dl el sl phi dp ep e : (3 * Rabs s < Rabs (w - f))%R ->
  find_ellipse (Fin w) (Fin f) (Fin s) dl el sl phi dp ep = Ok e -> nltb e (Fin 1) = false.
Proof.
  intros H E. unfold find_ellipse in E. match type of E with bind ?t _ = _ => destruct t as [tp|]; [|discriminate] end. cbn [bind] in E.
  destruct (pydiv _ _) as [a|] eqn:EA; [|discriminate]. cbn [bind] in E. match type of E with bind ?t _ = _ => destruct t as [b|] eqn:EB; [|discriminate] end. cbn [bind] in E.
  assert (E' : e = nsqrt (nadd (nadd a b) (nsq tp))) by congruence. subst e. clear E.
  assert (HA : exists r, a = Fin r /\ (1 <= r)%R).
  { unfold pydiv in EA. cbn in EA. destruct (Reqb _ 0) eqn:EQ; [discriminate|]. apply Reqb_false in EQ.
    assert (EA' : a = xdiv (Fin ((w - f) * (w - f))) (Fin (s * 3 * (s * 3)))) by (cbn; congruence). cbn in EA'.
    destruct (Req_EM_T _ 0) as [C|_]; [contradiction|]. eexists. split; [exact EA'|].
    assert (P : (0 < s * 3 * (s * 3))%R). { pose proof (Rle_0_sqr (s * 3)) as Q. unfold Rsqr in Q. lra. }
    assert (Q : (s * 3 * (s * 3) <= (w - f) * (w - f))%R).
    { change (Rsqr (s * 3) <= Rsqr (w - f))%R. apply Rsqr_le_abs_1. rewrite Rabs_mult, (Rabs_pos_eq 3) by lra. lra. }
    apply (Rmult_le_reg_r (s * 3 * (s * 3))); [exact P|]. set (p := (s * 3 * (s * 3))%R) in *. set (q := ((w - f) * (w - f))%R) in *. replace (q / p * p)%R with q by (field; lra). lra. }
  destruct HA as (r & -> & Hr). pose proof (xdiv_nonneg _ _ b (xsq_nonneg _) (xsq_nonneg _) EB) as HB. pose proof (xsq_nonneg tp) as HT.
  destruct HB as [->|[->|(r1 & -> & H1)]]; destruct HT as [->|[->|(r2 & -> & H2)]]; cbn; auto.
  destruct (Rlt_dec _ 0); [lra|]. cbn. apply Rltb_false. assert (Q : (sqrt 1 <= sqrt (r + r1 + r2))%R) by (apply sqrt_le_1_alt; lra). rewrite sqrt_1 in Q. lra.
Qed.
Lemma vectorize_in {A B} (f : A -> res B) l r : vectorize f l = Ok r -> forall b, In b r -> exists a, In a l /\ f a = Ok b.
Proof.
  unfold vectorize. destruct l as [|a0 l0]; [discriminate|]. revert r. generalize (a0 :: l0). intros l. induction l as [|a l IH]; intros r E b Hb; cbn [mapM] in E.
  - assert (r = []) by congruence. subst. destruct Hb.
  - destruct (f a) as [y|] eqn:EY; [|discriminate]. cbn [bind] in E. destruct (mapM f l) as [ys|]; [|discriminate]. cbn [bind] in E.
    assert (r = y :: ys) by congruence. subst. destruct Hb as [<-|Hb]; [exists a; split; [now left|exact EY]|].
    destruct (IH ys eq_refl b Hb) as (a' & H1 & H2). exists a'. split; [now right|exact H2].
Qed.
Lemma argwhere_none {A} (p : A -> bool) l : (forall a, In a l -> p a = false) -> argwhere p l = [].
Proof.
  intros H. destruct (argwhere p l) as [|i t] eqn:E; [reflexivity|]. exfalso. destruct l as [|a l]; [discriminate|].
  assert (Hi : In i (argwhere p (a :: l))) by (rewrite E; now left). apply (argwhere_spec a) in Hi as [Hi Hv]. rewrite H in Hv; [discriminate|]. apply nth_In. lia.
Qed.
Lemma combine_in_l {A B} (l : list A) : forall (m : list B) q, In q (combine l m) -> In (fst q) l.
Proof. induction l as [|a l IH]; intros [|b m] q Hq; cbn in *; try contradiction. destruct Hq as [<-|Hq]; [now left|right; eauto]. Qed.

Lemma besthist_far {rng} (seed : Z -> rng) rand qs lat f date z latL latS s longS phiL phiS ageL ageS use cs m g0 index :
  (forall c, In c cs -> exists w, c_long c = Fin w /\ (3 * Rabs s < Rabs (w - f))%R) ->
  fst (find_besthist seed rand qs lat (Fin f) date z latL latS (Fin s) longS phiL phiS ageL ageS use cs m g0) = Ok index -> index = [].
Proof.
  intros H E. unfold find_besthist in E. destruct (ellipse_index _ _ _ _ _ _ _ _) as [[pvf ie]|] eqn:EI; [|discriminate].
  assert (Hie : ie = []).
  { unfold ellipse_index in EI. destruct (pv_float _ _ _) as [pf|]; [|discriminate]. cbn [bind] in EI. destruct (pv_casts _ _) as [ph|]; [|discriminate]. cbn [bind] in EI.
    destruct (vectorize _ _) as [el|] eqn:EV; [|discriminate]. cbn [bind] in EI. assert (EI' : ie = argwhere (fun e => nltb e (nofZ 1)) el) by congruence. subst ie.
    apply argwhere_none. intros e He. destruct (vectorize_in _ _ _ EV e He) as (q & Hq & EQ). destruct (H _ (combine_in_l _ _ _ Hq)) as (w & EW & HW).
    rewrite EW in EQ. exact (ellipse_far _ _ _ _ _ _ _ _ _ _ HW EQ). }
  subst ie. destruct (Z.ltb m _); [|cbn in E; congruence].
  exfalso. unfold besthist_select in E. cbv zeta in E. destruct (Z.ltb (ceil3 m) 0); [discriminate|]. destruct (rand _ _) as [draws g2]. cbn [fst length seq filter] in E.
  unfold correlations in E at 1. unfold pv_casts in E at 1. destruct (use_pv use); cbn in E; discriminate.
Qed.
