(* sal_anom_plot *)
From Coq Require Import String ZArith List Bool Reals Lia Lra Permutation Sorted.
From Flocq Require Import Core.
From Verif Require Import Num Np NumFacts NpFacts Finders Spec_Finders Proofs_Utilities Proofs_Finders Proofs_Besthist Proofs_Thetas Proofs_Thetas2 Proofs_Thetas3
  Helper MapProfile Mapping   Config Calib Pyplot Plots Spec_Plots Spec_Plots2 Proofs_Plots1 Proofs_Plots5 Proofs_Plots6 Proofs_Plots7.
Import ListNotations.
Local Open Scope nat_scope.

(* ---- the median ---- *)
Lemma tally_perm P dec l l' : Permutation l l' -> tally P dec l = tally P dec l'.
Proof.
  intros Hp. unfold tally. induction Hp; cbn; auto.
  - destruct (dec x); cbn; congruence.
  - destruct (dec x), (dec y); reflexivity.
  - congruence.
Qed.
Lemma tally_app P dec l r : tally P dec (l ++ r) = tally P dec l + tally P dec r.
Proof. unfold tally. now rewrite filter_app, app_length. Qed.
Lemma tally_le P dec l : tally P dec l <= length l.
Proof. unfold tally. induction l as [|x l IH]; cbn; [lia|]. destruct (dec x); cbn; lia. Qed.
Lemma tally_none (P : R -> Prop) dec l : (forall x, In x l -> ~ P x) -> tally P dec l = 0.
Proof.
  unfold tally. induction l as [|x l IH]; intros Hn; cbn; [reflexivity|]. destruct (dec x) as [Hx|]; [exfalso; apply (Hn x); cbn; auto|].
  apply IH. intros y Hy. apply Hn. now right.
Qed.
Lemma tally_mono (P : R -> Prop) decP (Q : R -> Prop) decQ l : (forall x, In x l -> P x -> Q x) -> tally P decP l <= tally Q decQ l.
Proof.
  unfold tally. induction l as [|x l IH]; intros Hi; cbn; [lia|]. specialize (IH (fun y Hy => Hi y (or_intror Hy))).
  destruct (decP x) as [Hx|]; destruct (decQ x) as [Hq|Hq]; cbn; try lia. exfalso. apply Hq, Hi; cbn; auto.
Qed.
Lemma tally_map (P : R -> Prop) decP (Q : R -> Prop) decQ (g : R -> R) l : (forall x, P (g x) <-> Q x) -> tally P decP (map g l) = tally Q decQ l.
Proof.
  intros Hi. unfold tally. induction l as [|x l IH]; cbn; [reflexivity|].
  destruct (decP (g x)) as [Hx|Hx], (decQ x) as [Hq|Hq]; cbn; rewrite IH; try reflexivity; exfalso; [apply Hq|apply Hx]; now apply Hi.
Qed.

Lemma sorted_le s : StronglySorted Rle s -> forall i j, i <= j < length s -> (nth i s 0 <= nth j s 0)%R.
Proof.
  induction 1 as [|a s Hs IH Ha]; intros i j [Hij Hj]; [cbn in Hj; lia|]. cbn in Hj. destruct i as [|i], j as [|j]; cbn [nth].
  - lra.
  - rewrite Forall_forall in Ha. apply Ha. apply nth_In. lia.
  - lia.
  - apply IH. lia.
Qed.

(* the middle of a sorted list *)
Definition middle (s : list R) : R :=
  let n := length s in if Nat.odd n then nth (n / 2) s 0%R else ((nth (n / 2 - 1) s 0 + nth (n / 2) s 0) / 2)%R.

Lemma middle_median s : s <> [] -> StronglySorted Rle s -> is_median (middle s) s.
Proof.
  intros Hne Hs. pose proof (sorted_le s Hs) as Hle. set (n := length s) in *. assert (Hn : 1 <= n) by (destruct s; [contradiction|cbn; lia]).
  assert (Hdiv : n = 2 * (n / 2) + (if Nat.odd n then 1 else 0)).
  { pose proof (Nat.div2_odd n) as E. rewrite Nat.div2_div in E. unfold Nat.b2n in E; exact E. }
  set (h := n / 2) in *.
  assert (Hlow : forall i, i < n - h -> (nth i s 0 <= middle s)%R).
  { intros i Hi. unfold middle. fold n. fold h. destruct (Nat.odd n) in Hdiv |- *.
    - apply Hle. lia.
    - assert (nth i s 0 <= nth (h - 1) s 0)%R by (apply Hle; lia). assert (nth (h - 1) s 0 <= nth h s 0)%R by (apply Hle; lia). lra. }
  assert (Hhigh : forall i, h <= i < n -> (middle s <= nth i s 0)%R).
  { intros i Hi. unfold middle. fold n. fold h. destruct (Nat.odd n) in Hdiv |- *.
    - apply Hle. lia.
    - assert (nth h s 0 <= nth i s 0)%R by (apply Hle; lia). assert (nth (h - 1) s 0 <= nth h s 0)%R by (apply Hle; lia). lra. }
  split.
  - fold n. unfold above. rewrite <- (firstn_skipn (n - h) s), tally_app, tally_none.
    + pose proof (tally_le (fun x => (middle s < x)%R) (fun x => Rlt_dec (middle s) x) (skipn (n - h) s)) as Ht. rewrite skipn_length in Ht. fold n in Ht. rewrite (firstn_skipn (n - h) s). destruct (Nat.odd n) in Hdiv; lia.
    + rewrite (firstn_skipn (n - h) s). intros x Hx. apply (In_nth _ _ 0%R) in Hx as (i & Hi & <-). rewrite firstn_length in Hi. fold n in Hi.
      rewrite <- (firstn_skipn (n - h) s) at 1. 
      assert (E : nth i (firstn (n - h) s) 0%R = nth i s 0%R).
      { rewrite <- (firstn_skipn (n - h) s) at 2. rewrite app_nth1; [reflexivity|]. rewrite firstn_length. fold n. lia. }
      rewrite (firstn_skipn (n - h) s), E. specialize (Hlow i ltac:(lia)). lra.
  - fold n. unfold below. rewrite <- (firstn_skipn h s), tally_app, (tally_none _ _ (skipn h s)).
    + pose proof (tally_le (fun x => (x < middle s)%R) (fun x => Rlt_dec x (middle s)) (firstn h s)) as Ht. rewrite firstn_length in Ht. fold n in Ht. rewrite (firstn_skipn h s). destruct (Nat.odd n) in Hdiv; lia.
    + rewrite (firstn_skipn h s). intros x Hx. apply (In_nth _ _ 0%R) in Hx as (i & Hi & <-). rewrite skipn_length in Hi. fold n in Hi.
      assert (E : nth i (skipn h s) 0%R = nth (h + i) s 0%R).
      { rewrite <- (firstn_skipn h s) at 2. rewrite app_nth2; rewrite firstn_length; fold n; [f_equal|]; lia. }
      rewrite E. specialize (Hhigh (h + i) ltac:(lia)). lra.
Qed.

Lemma is_median_perm m l l' : Permutation l l' -> is_median m l -> is_median m l'.
Proof.
  intros Hp [Ha Hb]. unfold is_median, above, below in *. rewrite <- (Permutation_length Hp).
  rewrite <- (tally_perm _ _ _ _ Hp) , <- (tally_perm (fun x => (x < m)%R) _ _ _ Hp). auto.
Qed.

(* np.nanmedian *)
Lemma nanmedian_oX os : (somes os = [] /\ nanmedian (map oX os) = NaN) \/
  exists s, Permutation s (somes os) /\ StronglySorted Rle s /\ s <> [] /\ nanmedian (map oX os) = Fin (middle s).
Proof.
  unfold nanmedian. rewrite drop_nan_oX. destruct (np_sort_R (somes os)) as (s & Es & Hp & Hs). rewrite Es, map_length.
  destruct s as [|a s].
  - left. apply Permutation_nil in Hp. auto.
  - right. exists (a :: s). split; [assumption|]. split; [assumption|]. split; [discriminate|].
    set (l := a :: s) in *. set (n := length l). assert (Hn : 1 <= n) by (unfold n, l; cbn; lia).
    destruct (Nat.eqb_spec n 0); [lia|].
    assert (Enth : forall i, i < n -> nth i (map Fin l) nnan = Fin (nth i l 0%R)).
    { intros i Hi. apply nth_map. exact Hi. }
    unfold middle. fold n.
    assert (Hdiv : n = 2 * (n / 2) + (if Nat.odd n then 1 else 0)).
    { pose proof (Nat.div2_odd n) as E. rewrite Nat.div2_div in E. unfold Nat.b2n in E; exact E. }
    destruct (Nat.odd n) eqn:Eo.
    + apply Enth. lia.
    + rewrite !Enth by lia. change [Fin (nth (n / 2 - 1) l 0%R); Fin (nth (n / 2) l 0%R)] with (map Fin [nth (n / 2 - 1) l 0%R; nth (n / 2) l 0%R]).
      rewrite mean_fin by discriminate. f_equal. unfold mean_of. cbn. lra.
Qed.
Lemma nanmedian_median os : (somes os = [] /\ nanmedian (map oX os) = NaN) \/ exists m, is_median m (somes os) /\ nanmedian (map oX os) = Fin m.
Proof.
  destruct (nanmedian_oX os) as [|(s & Hp & Hs & Hne & E)]; [now left|]. right. exists (middle s). split; [|assumption].
  eapply is_median_perm; [exact Hp|]. now apply middle_median.
Qed.
Lemma sorted_shift c s : StronglySorted Rle s -> StronglySorted Rle (map (fun x => (x + c)%R) s).
Proof.
  induction 1 as [|a s Hs IH Ha]; cbn; constructor; [assumption|]. apply Forall_forall. intros y Hy. apply in_map_iff in Hy as (x & <- & Hx).
  rewrite Forall_forall in Ha. specialize (Ha x Hx). lra.
Qed.
Lemma sorted_perm_unique s t : StronglySorted Rle s -> StronglySorted Rle t -> Permutation s t -> s = t.
Proof. apply sorted_perm_eq. Qed.
Lemma middle_shift c s : s <> [] -> middle (map (fun x => (x + c)%R) s) = (middle s + c)%R.
Proof.
  intros Hne. unfold middle. rewrite map_length. set (n := length s). assert (Hn : 1 <= n) by (unfold n; destruct s; [contradiction|cbn; lia]).
  assert (Hdiv : n = 2 * (n / 2) + (if Nat.odd n then 1 else 0)).
  { pose proof (Nat.div2_odd n) as E. rewrite Nat.div2_div in E. unfold Nat.b2n in E; exact E. }
  assert (Enth : forall i, i < n -> nth i (map (fun x => (x + c)%R) s) 0%R = (nth i s 0 + c)%R).
  { intros i Hi. rewrite (nth_map _ _ _ 0%R 0%R) by exact Hi. reflexivity. }
  destruct (Nat.odd n) in Hdiv |- *; rewrite !Enth by lia; lra.
Qed.
Lemma somes_shift c os : somes (map (shift c) os) = map (fun x => (x + c)%R) (somes os).
Proof. induction os as [|[x|] os IH]; cbn; [reflexivity| |exact IH]. f_equal. exact IH. Qed.
Lemma nanmedian_shift c os : exists o, nanmedian (map oX os) = oX o /\ nanmedian (map oX (map (shift c) os)) = oX (shift c o).
Proof.
  destruct (nanmedian_oX os) as [[En E]|(s & Hp & Hs & Hne & E)]; destruct (nanmedian_oX (map (shift c) os)) as [[En' E']|(t & Hp' & Ht & Hne' & E')];
    rewrite somes_shift in *.
  - exists None. split; assumption.
  - exfalso. rewrite En in Hp'. apply Permutation_sym, Permutation_nil in Hp'. contradiction.
  - exfalso. apply map_eq_nil in En'. rewrite En' in Hp. apply Permutation_sym, Permutation_nil in Hp. contradiction.
  - exists (Some (middle s)). split; [assumption|]. rewrite E'. cbn. f_equal. rewrite <- middle_shift by assumption. f_equal.
    apply sorted_perm_unique; [assumption|now apply sorted_shift|]. rewrite Hp'. apply Permutation_map. now apply Permutation_sym.
Qed.
(* a value held by more than half is the median *)
Lemma majority_median m v l : is_median m l -> length l < 2 * equal_to v l -> m = v.
Proof.
  intros [Ha Hb] Hm. destruct (Rtotal_order m v) as [Hlt|[Heq|Hgt]]; [|assumption|]; exfalso.
  - assert (equal_to v l <= above m l); [|lia]. apply tally_mono. intros x _ ->. assumption.
  - assert (equal_to v l <= below m l); [|lia]. apply tally_mono. intros x _ ->. lra.
Qed.

(* ---- the anomalies on data that may be missing ---- *)
Definition oof (x : XR) : option R := match x with Fin r => Some r | _ => None end.
Definition oP (q : option R * option R) : XR * XR := (oX (fst q), oX (snd q)).
Definition oeqb (a b : option R) : bool := match a, b with Some x, Some y => Reqb x y | _, _ => false end.
Lemma oeqb_eq a b : neqb (oX a) (oX b) = oeqb a b.
Proof. destruct a, b; reflexivity. Qed.
Fixpoint odrop (prev : option R) (l : list (option R * option R)) : list (option R * option R) :=
  match l with
  | [] => []
  | b :: r => if oeqb (fst b) prev then odrop prev r else b :: odrop (fst b) r
  end.
Definition ofirst (l : list (option R * option R)) := match l with [] => [] | a :: r => a :: odrop (fst a) r end.
Lemma odrop_eq l : forall a, drop_equal (oX a) (map oP l) = map oP (odrop a l).
Proof.
  induction l as [|b l IH]; intros a; [reflexivity|]. cbn [map drop_equal odrop].
  change (fst (oP b)) with (oX (fst b)). rewrite oeqb_eq. destruct (oeqb (fst b) a); [apply IH|]. cbn [map]. now rewrite IH.
Qed.
Lemma ofirst_eq l : first_of_equal (map oP l) = map oP (ofirst l).
Proof. destruct l as [|a l]; [reflexivity|]. cbn [map first_of_equal ofirst]. change (fst (oP a)) with (oX (fst a)). now rewrite odrop_eq. Qed.
Definition both (q : option R * option R) : list (R * R) := match q with (Some x, Some y) => [(x, y)] | _ => [] end.
Lemma both_eq l : filter (fun q : XR * XR => negb (nisnan (fst q)) && negb (nisnan (snd q))) (map oP l) = map (fun q => (Fin (fst q), Fin (snd q))) (flat_map both l).
Proof. induction l as [|[[x|] [y|]] l IH]; cbn; [reflexivity| | | |]; try exact IH. f_equal. exact IH. Qed.
Lemma combine_oX t : forall s, combine (map oX t) (map oX s) = map oP (combine t s).
Proof. induction t as [|x t IH]; intros [|y s]; cbn; [reflexivity..|]. f_equal. apply IH. Qed.
Lemma take_oP l idx : take (NaN, NaN) (map oP l) idx = map oP (take (None, None) l idx).
Proof. unfold take. rewrite map_map. apply map_ext. intros i. change (NaN, NaN) with (oP (None, None)). apply map_nth. Qed.

Definition osub (a b : option R) : option R := match a, b with Some x, Some y => Some (x - y)%R | _, _ => None end.
Lemma osub_eq a b : nsub (oX a) (oX b) = oX (osub a b).
Proof. destruct a, b; reflexivity. Qed.

Definition oshift2 c (q : option R * option R) := (fst q, shift c (snd q)).
Lemma odrop_shift c l : forall a, odrop a (map (oshift2 c) l) = map (oshift2 c) (odrop a l).
Proof.
  induction l as [|b l IH]; intros a; [reflexivity|]. cbn [map odrop]. change (fst (oshift2 c b)) with (fst b). destruct (oeqb (fst b) a); [apply IH|].
  cbn [map]. now rewrite IH.
Qed.
Lemma combine_shift c t : forall s, combine t (map (shift c) s) = map (oshift2 c) (combine t s).
Proof. induction t as [|x t IH]; intros [|y s]; cbn; [reflexivity..|]. f_equal. apply IH. Qed.
Lemma both_shift c l : flat_map both (map (oshift2 c) l) = map (fun q => (fst q, (snd q + c)%R)) (flat_map both l).
Proof. induction l as [|[[x|] [y|]] l IH]; cbn; [reflexivity| | | |]; try exact IH. f_equal. exact IH. Qed.

Section Anomaly.
  Variable f : list XR -> list XR -> XR -> XR.
  Variable argsort : list XR -> list nat.
  Hypothesis Hf : interpolates f.

  Definition goodO (t s : list (option R)) : list (R * R) := flat_map both (ofirst (take (None, None) (combine t s) (argsort (map oX t)))).
  Lemma goodO_eq t s : good_pairs argsort (map oX t) (map oX s) = map (fun q => (Fin (fst q), Fin (snd q))) (goodO t s).
  Proof. unfold good_pairs, goodO. cbv zeta. rewrite combine_oX. change (@nnan XR XR_Num) with NaN. rewrite take_oP, ofirst_eq. apply both_eq. Qed.
  Lemma goodO_shift c t s : goodO t (map (shift c) s) = map (fun q => (fst q, (snd q + c)%R)) (goodO t s).
  Proof.
    unfold goodO. rewrite combine_shift. rewrite <- both_shift. f_equal.
    assert (E : take (None, None) (map (oshift2 c) (combine t s)) (argsort (map oX t)) = map (oshift2 c) (take (None, None) (combine t s) (argsort (map oX t)))).
    { unfold take. rewrite map_map. apply map_ext. intros i. change (None, None) with (oshift2 c (None, None)) at 1. apply map_nth. }
    rewrite E. destruct (take (None, None) (combine t s) (argsort (map oX t))) as [|a l]; [reflexivity|].
    cbn [map ofirst]. change (fst (oshift2 c a)) with (fst a). f_equal. apply odrop_shift.
  Qed.
  Definition valO (t s : list (option R)) (x : R) : option R :=
    let g := goodO t s in if Nat.leb 3 (length g) then oof (f (map Fin (map fst g)) (map Fin (map snd g)) (Fin x)) else None.
  Lemma valO_eq bs t s : interpolated f argsort (map Fin bs) (map oX t) (map oX s) = map (fun x => oX (valO t s x)) bs.
  Proof.
    unfold interpolated, valO. cbv zeta. rewrite goodO_eq. set (g := goodO t s). rewrite map_length, !map_map. cbn [fst snd].
    destruct (Nat.leb 3 (length g)); [|reflexivity]. apply map_ext. intros x.
    destruct (Hf (map fst g) (map snd g) x) as (o & E & _). rewrite !map_map in E. rewrite E. destruct o; reflexivity.
  Qed.
  Lemma valO_shift c t s x : valO t (map (shift c) s) x = shift c (valO t s x).
  Proof.
    unfold valO. cbv zeta. rewrite goodO_shift. set (g := goodO t s). rewrite map_length. destruct (Nat.leb 3 (length g)); [|reflexivity].
    destruct (Hf (map fst g) (map snd g) x) as (o & E & Es). specialize (Es c).
    assert (E1 : map fst (map (fun q : R * R => (fst q, (snd q + c)%R)) g) = map fst g) by (rewrite map_map; reflexivity).
    assert (E2 : map snd (map (fun q : R * R => (fst q, (snd q + c)%R)) g) = map (fun y => (y + c)%R) (map snd g)) by (rewrite !map_map; reflexivity).
    rewrite E1, E2, E, Es. destruct o; reflexivity.
  Qed.

  (* a complete profile in strictly ascending order of the temperatures *)
  Lemma odrop_ascending l : forall a, StronglySorted Rlt (a :: map fst l) ->
    odrop (Some a) (map (fun q => (Some (fst q), Some (snd q))) l) = map (fun q : R * R => (Some (fst q), Some (snd q))) l.
  Proof.
    induction l as [|[x y] l IH]; intros a Hs; [reflexivity|]. cbn [map odrop fst snd] in *. inversion Hs as [|? ? Hs' Ha]; subst.
    assert (Hx : (a < x)%R) by (inversion Ha; assumption).
    assert (E : oeqb (Some x) (Some a) = false) by (cbn; apply Reqb_false; lra). rewrite E. f_equal. now apply IH.
  Qed.
  Lemma both_all l : flat_map both (map (fun q : R * R => (Some (fst q), Some (snd q))) l) = l.
  Proof. induction l as [|[x y] l IH]; cbn; [reflexivity|]. f_equal. exact IH. Qed.
  Lemma map_fst_combine (xs : list R) : forall ys : list R, length xs = length ys -> map fst (combine xs ys) = xs.
  Proof. induction xs as [|x xs IH]; intros [|y ys] E; try discriminate; [reflexivity|]. cbn. f_equal. apply IH. now injection E. Qed.
  Lemma map_snd_combine (xs : list R) : forall ys : list R, length xs = length ys -> map snd (combine xs ys) = ys.
  Proof. induction xs as [|x xs IH]; intros [|y ys] E; try discriminate; [reflexivity|]. cbn. f_equal. apply IH. now injection E. Qed.
  Lemma goodO_plain xs ys : length xs = length ys -> StronglySorted Rlt xs -> argsort (map Fin xs) = seq 0 (length xs) ->
    goodO (map Some xs) (map Some ys) = combine xs ys.
  Proof.
    intros Hl Hs Ha. unfold goodO. assert (Em : map oX (map Some xs) = map Fin xs) by (rewrite map_map; reflexivity). rewrite Em, Ha.
    assert (Ec : combine (map Some xs) (map Some ys) = map (fun q : R * R => (Some (fst q), Some (snd q))) (combine xs ys)).
    { clear. revert ys. induction xs as [|x xs IH]; intros [|y ys]; cbn; [reflexivity..|]. f_equal. apply IH. }
    rewrite Ec.
    assert (Et : take (None, None) (map (fun q : R * R => (Some (fst q), Some (snd q))) (combine xs ys)) (seq 0 (length xs)) = map (fun q : R * R => (Some (fst q), Some (snd q))) (combine xs ys)).
    { unfold take. apply nth_ext with (d := (None, None)) (d' := (None, None)); [rewrite !map_length, seq_length, combine_length; lia|].
      intros i Hi. rewrite map_length, seq_length in Hi. rewrite (nth_map _ _ _ (None, None) 0) by (now rewrite seq_length). now rewrite seq_nth. }
    rewrite Et. pose proof (map_fst_combine xs ys Hl) as Ef. destruct (combine xs ys) as [|[x y] l]; [reflexivity|].
    cbn [map ofirst fst snd]. rewrite odrop_ascending.
    - apply (both_all ((x, y) :: l)).
    - cbn in Ef. now rewrite Ef.
  Qed.
  (* a profile without temperatures has no pairs *)
  Lemma odrop_none l : Forall (fun q => fst q = None) l -> forall a, Forall (fun q => fst q = None) (odrop a l).
  Proof. induction 1 as [|b l Hb Hl IH]; intros a; cbn; [constructor|]. destruct (oeqb (fst b) a); [apply IH|]. constructor; [assumption|apply IH]. Qed.
  Lemma both_none l : Forall (fun q : option R * option R => fst q = None) l -> flat_map both l = [].
  Proof. induction 1 as [|[a b] l Hb Hl IH]; cbn; [reflexivity|]. cbn in Hb. subst a. exact IH. Qed.
  Lemma goodO_none t s : ~ has_temp t -> goodO t s = [].
  Proof.
    intros Ht. unfold goodO. apply both_none.
    assert (Hc : Forall (fun q : option R * option R => fst q = None) (take (None, None) (combine t s) (argsort (map oX t)))).
    { apply Forall_forall. intros q Hq. unfold take in Hq. apply in_map_iff in Hq as (i & <- & _).
      destruct (Nat.lt_ge_cases i (length (combine t s))) as [Hi|Hi]; [|now rewrite nth_overflow].
      pose proof (nth_In _ (None, None) Hi) as Hin. destruct (nth i (combine t s) (None, None)) as [[x|] y]; [|reflexivity].
      exfalso. apply Ht. exists x. now apply in_combine_l in Hin. }
    destruct (take (None, None) (combine t s) (argsort (map oX t))) as [|a l]; [constructor|]. inversion Hc; subst. cbn. constructor; [assumption|]. now apply odrop_none.
  Qed.
  Lemma valO_none t s x : ~ has_temp t -> valO t s x = None.
  Proof. intros Ht. unfold valO. now rewrite goodO_none. Qed.

  Lemma temp_iff c : negb (forallb nisnan (map oX c)) = true <-> has_temp c.
  Proof.
    rewrite negb_true_iff. split.
    - induction c as [|[x|] c IH]; cbn; [discriminate| |]; intros E; [exists x; cbn; auto|]. apply IH in E as (x & Hx). exists x. now right.
    - intros (x & Hx). induction c as [|y c IH]; [contradiction|]. destruct Hx as [->|Hx]; [reflexivity|]. cbn [map forallb]. rewrite (IH Hx). apply andb_false_r.
  Qed.
  Lemma last_In {A} (l : list A) d : In (last l d) (d :: l).
  Proof.
    induction l as [|a l IH]; [now left|]. cbn [last]. destruct l as [|b l]; [right; now left|]. destruct IH as [<-|IH]; [now left|]. right. right. exact IH.
  Qed.
  Lemma sorted_last l a d : StronglySorted lt (d :: l) -> In a (d :: l) -> a <= last l d.
  Proof.
    revert d. induction l as [|b l IH]; intros d Hs Ha.
    - destruct Ha as [->|[]]. auto.
    - inversion Hs as [|? ? Hs' Hd]; subst. assert (El : last (b :: l) d = last l b).
      { clear. revert b d. induction l as [|c l IH]; intros b d; [reflexivity|]. change (last (b :: c :: l) d) with (last (c :: l) d). rewrite (IH c d). symmetry. apply (IH c b). }
      rewrite El. destruct Ha as [<-|Ha].
      + rewrite Forall_forall in Hd. specialize (Hd (last l b) (last_In l b)). lia.
      + apply IH; assumption.
  Qed.
  (* the profiles left out are without temperatures *)
  Lemma range_spec ts : (profile_range (map (map oX) ts) = Raise ValueError /\ forall k, ~ has_temp (nth k ts [])) \/
    exists first final, profile_range (map (map oX) ts) = Ok (first, final)
      /\ (forall k, has_temp (nth k ts []) -> Nat.leb first k && Nat.leb k final = true) /\ exists k, has_temp (nth k ts []).
  Proof.
    unfold profile_range. set (idx := argwhere _ _).
    assert (Hi : forall k, In k idx <-> has_temp (nth k ts [])).
    { intros k. unfold idx. rewrite (argwhere_spec (map oX [])), map_nth, temp_iff, map_length. split; [tauto|]. intros Hk. split; [|assumption].
      destruct (Nat.lt_ge_cases k (length ts)); [assumption|]. rewrite nth_overflow in Hk by assumption. destruct Hk as (x & []). }
    assert (Hs : StronglySorted lt idx) by apply argwhere_from_sorted.
    destruct idx as [|a r].
    - left. split; [reflexivity|]. intros k Hk. apply Hi in Hk. contradiction.
    - right. exists a, (last r a). split; [reflexivity|]. split.
      + intros k Hk. apply Hi in Hk. apply andb_true_intro. split; apply Nat.leb_le.
        * destruct Hk as [->|Hk]; [auto|]. inversion Hs as [|? ? _ Hd]; subst. rewrite Forall_forall in Hd. specialize (Hd k Hk). lia.
        * now apply sorted_last.
      + exists a. apply Hi. now left.
  Qed.

  Lemma map2_map {A B C D} (h : A -> B -> C) (g1 : D -> A) (g2 : D -> B) l : map2 h (map g1 l) (map g2 l) = map (fun x => h (g1 x) (g2 x)) l.
  Proof. unfold map2. induction l as [|x l IH]; [reflexivity|]. cbn. f_equal. exact IH. Qed.
  Lemma map_seq_nth {A B} (g : A -> B) d l : map (fun i => g (nth i l d)) (seq 0 (length l)) = map g l.
  Proof.
    apply nth_ext with (d := g d) (d' := g d); [now rewrite !map_length, seq_length|]. intros i Hi. rewrite map_length, seq_length in Hi.
    rewrite (nth_map _ _ _ (g d) 0) by (now rewrite seq_length). rewrite seq_nth by assumption. symmetry. apply map_nth.
  Qed.

  Definition medO (bs : list R) (ts ss : list (list (option R))) (x : R) : option R :=
    oof (nanmedian (map (fun k => oX (valO (nth k ts []) (nth k ss []) x)) (seq 0 (length ss)))).
  Lemma medO_eq bs ts ss x : nanmedian (map (fun k => oX (valO (nth k ts []) (nth k ss []) x)) (seq 0 (length ss))) = oX (medO bs ts ss x).
  Proof.
    unfold medO. rewrite <- (map_map (fun k => valO (nth k ts []) (nth k ss []) x) oX).
    destruct (nanmedian_median (map (fun k => valO (nth k ts []) (nth k ss []) x) (seq 0 (length ss)))) as [[_ E]|(m & _ & E)]; rewrite E; reflexivity.
  Qed.
  Lemma anomalies_oX bs ts ss : anomalies f argsort (map Fin bs) (map (map oX) ss) (map (map oX) ts) =
    match profile_range (map (map oX) ts) with
    | Ok _ => Ok (map (fun k => map (fun x => oX (osub (valO (nth k ts []) (nth k ss []) x) (medO bs ts ss x))) bs) (seq 0 (length ss)))
    | Raise e => Raise e
    end.
  Proof.
    unfold anomalies. destruct (range_spec ts) as [[E Hn]|(first & final & E & Hin & _)]; rewrite E; [reflexivity|]. cbn [bind]. cbv beta zeta.
    rewrite !map_length. f_equal.
    assert (Ei : forall k, (if Nat.leb first k && Nat.leb k final then interpolated f argsort (map Fin bs) (nth k (map (map oX) ts) []) (nth k (map (map oX) ss) []) else map (fun _ : XR => nnan) (map Fin bs))
       = map (fun x => oX (valO (nth k ts []) (nth k ss []) x)) bs).
    { intros k. change (@nil XR) with (map oX []). rewrite !map_nth. destruct (Nat.leb first k && Nat.leb k final) eqn:Ek; [apply valO_eq|].
      rewrite map_map. apply map_ext. intros x. rewrite valO_none; [reflexivity|]. intros Hk. apply Hin in Hk. congruence. }
    assert (Es : map (fun k => if Nat.leb first k && Nat.leb k final then interpolated f argsort (map Fin bs) (nth k (map (map oX) ts) []) (nth k (map (map oX) ss) []) else map (fun _ : XR => nnan) (map Fin bs)) (seq 0 (length ss))
       = map (fun k => map (fun x => oX (valO (nth k ts []) (nth k ss []) x)) bs) (seq 0 (length ss))) by (apply map_ext; exact Ei).
    rewrite Es.
    assert (Em : map (fun i => nanmedian (map (fun c => nth i c nnan) (map (fun k => map (fun x => oX (valO (nth k ts []) (nth k ss []) x)) bs) (seq 0 (length ss))))) (seq 0 (length bs))
       = map (fun x => oX (medO bs ts ss x)) bs).
    { rewrite <- (map_seq_nth (fun x => oX (medO bs ts ss x)) 0%R bs). apply map_ext_in. intros i Hi. apply in_seq in Hi. rewrite map_map.
      rewrite <- (medO_eq bs). f_equal. apply map_ext. intros k. apply (nth_map (fun x => oX (valO (nth k ts []) (nth k ss []) x)) bs i nnan 0%R). lia. }
    rewrite Em. apply map_ext_in. intros k Hk. apply in_seq in Hk.
    rewrite (nth_map _ _ _ [] 0) by (rewrite seq_length; lia). rewrite seq_nth by lia. cbn [Nat.add].
    destruct (Nat.leb first k && Nat.leb k final) eqn:Ek.
    - rewrite map2_map. apply map_ext. intros x. apply osub_eq.
    - rewrite map_map. apply map_ext. intros x. rewrite valO_none; [reflexivity|]. intros Hk'. apply Hin in Hk'. congruence.
  Qed.
End Anomaly.

(* ---- the plot ---- *)
Lemma theta_base_eq : @theta_base XR XR_Num = Ok (map Fin theta_grid).
Proof.
  unfold theta_base. rewrite !nq_fin by lia. rewrite arange_fin by lra.
  replace ((IZR 301 / IZR 10 - IZR 1 / IZR 10) / (IZR 1 / IZR 10))%R with (IZR 300) by field. rewrite Zceil_IZR.
  change (Z.to_nat 300) with 300. unfold theta_grid. rewrite map_map. f_equal. apply map_ext. intros k. f_equal. rewrite S_INR. lra.
Qed.
Lemma finite_oX l : finite_values (map oX l) = somes l.
Proof. induction l as [|[x|] l IH]; cbn; [reflexivity| |exact IH]. f_equal. exact IH. Qed.
Lemma somes_osub m l : somes (map (fun o => osub o (Some m)) l) = map (fun x => (x - m)%R) (somes l).
Proof. induction l as [|[x|] l IH]; cbn; [reflexivity| |exact IH]. f_equal. exact IH. Qed.
Lemma somes_osub_none l : somes (map (fun o => osub o None) l) = [].
Proof. induction l as [|[x|] l IH]; cbn; [reflexivity|exact IH..]. Qed.
Lemma median_zero m l : is_median m l -> is_median 0 (map (fun x => (x - m)%R) l).
Proof.
  intros [Ha Hb]. unfold is_median, above, below in *. rewrite map_length.
  rewrite (tally_map _ _ (fun x => (m < x)%R) (fun x => Rlt_dec m x)) by (intros x; lra).
  rewrite (tally_map _ _ (fun x => (x < m)%R) (fun x => Rlt_dec x m)) by (intros x; lra). auto.
Qed.
Lemma nth_fin_map {A} (g : R -> A) i d : i < 300 -> nth i (map g theta_grid) d = g (nth i theta_grid 0%R).
Proof. intros Hi. apply nth_map. unfold theta_grid. now rewrite map_length, seq_length. Qed.

Section AnomalyPlot.
  Variable f : list XR -> list XR -> XR -> XR.
  Variable argsort : list XR -> list nat.
  Variable show_bounds : XR * XR -> string.
  Hypothesis Hf : interpolates f.
  Let plot := sal_anom_plot f argsort show_bounds.
  Local Notation val := (valO f argsort).

  (* what is drawn *)
  Definition anomaliesO ts ss : list (list XR) :=
    map (fun k => map (fun x => oX (osub (val (nth k ts []) (nth k ss []) x) (medO f argsort theta_grid ts ss x))) theta_grid) (seq 0 (length ss)).
  Lemma sal_anom_outcome ts ss nos p name title :
    completes (plot (map (map oX) ss) (map (map oX) ts) nos p name title) <->
    (exists t, In t ts /\ has_temp t) /\
    (pp_bounds p = [] \/ length nos = length ss /\ 2 <= length ss /\ Forall (fun b => nisfin (fst b) = true /\ nisfin (snd b) = true) (pp_bounds p)).
  Proof.
    unfold plot, sal_anom_plot. rewrite theta_base_eq. cbn [bind]. rewrite (anomalies_oX f argsort Hf).
    destruct (range_spec ts) as [[E Hn]|(a & b & E & _ & k & Hk)]; rewrite E; cbn [bind pbind fst snd].
    - split; [discriminate|]. intros [(t & Ht & Htt) _]. exfalso. apply (In_nth _ _ []) in Ht as (k & _ & <-). now apply (Hn k).
    - rewrite completes_pfor. unfold contours. fold (anomaliesO ts ss).
      assert (El : length (anomaliesO ts ss) = length ss) by (unfold anomaliesO; now rewrite map_length, seq_length). rewrite El.
      assert (Hin : exists t, In t ts /\ has_temp t).
      { exists (nth k ts []). split; [|assumption]. apply nth_In. destruct (Nat.lt_ge_cases k (length ts)); [assumption|]. rewrite nth_overflow in Hk by assumption. destruct Hk as (x & []). }
      split.
      + intros Hc. split; [exact Hin|]. destruct (pp_bounds p) as [|b0 bs] eqn:Eb; [now left|right].
        assert (Hall : forall c, In c (b0 :: bs) -> (length nos = length ss /\ 2 <= length ss) /\ nisfin (fst c) = true /\ nisfin (snd c) = true).
        { intros c Hin'. specialize (Hc c Hin'). apply completes_pseq in Hc as [_ Hc]. apply completes_pseq in Hc as [Hb Hc]. apply completes_pseq in Hc as [Hl _].
          apply completes_limits in Hl as (_ & H1 & H2). split; [|auto].
          destruct (Nat.leb_spec 2 (length ss)); cbn [andb] in Hb; [|discriminate]. destruct (Nat.eqb_spec (length nos) (length ss)); [auto|discriminate]. }
        destruct (Hall b0 (or_introl eq_refl)) as [[H1 H2] _]. split; [exact H1|]. split; [exact H2|]. apply Forall_forall. intros c Hc'. now apply Hall.
      + intros [_ Hb] c Hc. destruct Hb as [Eb|(H1 & H2 & Hb)]; [rewrite Eb in Hc; contradiction|].
        rewrite Forall_forall in Hb. specialize (Hb c Hc) as [Hb1 Hb2]. rewrite !completes_pseq. split; [reflexivity|].
        assert (E2 : Nat.leb 2 (length ss) = true) by now apply Nat.leb_le. rewrite E2, H1, Nat.eqb_refl. cbn [andb]. split; [reflexivity|].
        unfold limits. rewrite Hb1, Hb2. split; reflexivity.
  Qed.
  Lemma sal_anom_contours ts ss nos p name title : completes (plot (map (map oX) ss) (map (map oX) ts) nos p name title) ->
    drawn (plot (map (map oX) ss) (map (map oX) ts) nos p name title) =
      flat_map (fun b => [Contours nos (map Fin theta_grid) (anomaliesO ts ss); Limits false (fst b) (snd b)]) (pp_bounds p).
  Proof.
    unfold plot, sal_anom_plot. rewrite theta_base_eq. cbn [bind]. rewrite (anomalies_oX f argsort Hf). intros Hc.
    destruct (profile_range (map (map oX) ts)) as [a|e]; cbn [bind pbind] in Hc |- *; [|discriminate]. cbn [fst snd] in *.
    fold (anomaliesO ts ss) in *. pose proof (proj1 (completes_pfor _ _) Hc) as Hb. rewrite drawn_pfor by assumption.
    apply flat_map_ext_in. intros b Hin. specialize (Hb b Hin). cbv beta in Hb.
    apply completes_pseq in Hb as [H1 Hb]. rewrite drawn_pseq by assumption. apply completes_pseq in Hb as [H2 Hb]. rewrite drawn_pseq by assumption.
    apply completes_pseq in Hb as [H3 Hb]. rewrite drawn_pseq by assumption. apply completes_limits in H3 as [E3 _]. rewrite E3.
    unfold contours in *. destruct (_ && _); [reflexivity|discriminate].
  Qed.

  (* no profile is favoured *)
  Lemma sal_anom_balanced ts ss nos p name title : completes (plot (map (map oX) ss) (map (map oX) ts) nos p name title) ->
    exists z, drawn (plot (map (map oX) ss) (map (map oX) ts) nos p name title) =
        flat_map (fun b => [Contours nos (map Fin theta_grid) (map (map oX) z); Limits false (fst b) (snd b)]) (pp_bounds p)
      /\ length z = length ss /\ (forall c, In c z -> length c = 300)
      /\ forall i, i < 300 -> is_median 0 (finite_values (row i (map (map oX) z))).
  Proof.
    intros Hc. exists (map (fun k => map (fun x => osub (val (nth k ts []) (nth k ss []) x) (medO f argsort theta_grid ts ss x)) theta_grid) (seq 0 (length ss))).
    assert (Ez : map (map oX) (map (fun k => map (fun x => osub (val (nth k ts []) (nth k ss []) x) (medO f argsort theta_grid ts ss x)) theta_grid) (seq 0 (length ss))) = anomaliesO ts ss).
    { unfold anomaliesO. rewrite map_map. apply map_ext. intros k. now rewrite map_map. }
    rewrite Ez. split; [now apply sal_anom_contours|]. split; [now rewrite map_length, seq_length|]. split.
    { intros c Hin. apply in_map_iff in Hin as (k & <- & _). unfold theta_grid. now rewrite !map_length, seq_length. }
    intros i Hi. unfold row, anomaliesO. rewrite map_map.
    set (x := nth i theta_grid 0%R).
    assert (Er : map (fun k => nth i (map (fun x => oX (osub (val (nth k ts []) (nth k ss []) x) (medO f argsort theta_grid ts ss x))) theta_grid) NaN) (seq 0 (length ss))
      = map oX (map (fun o => osub o (medO f argsort theta_grid ts ss x)) (map (fun k => val (nth k ts []) (nth k ss []) x) (seq 0 (length ss))))).
    { rewrite !map_map. apply map_ext. intros k. now apply (nth_fin_map (fun x => oX (osub (val (nth k ts []) (nth k ss []) x) (medO f argsort theta_grid ts ss x)))). }
    rewrite Er, finite_oX. unfold medO. rewrite <- (map_map (fun k => val (nth k ts []) (nth k ss []) x) oX).
    destruct (nanmedian_median (map (fun k => val (nth k ts []) (nth k ss []) x) (seq 0 (length ss)))) as [[_ E]|(m & Hm & E)]; rewrite E; cbn [oof].
    - rewrite somes_osub_none. split; cbn; lia.
    - rewrite somes_osub. now apply median_zero.
  Qed.

  (* a common offset is not shown *)
  Lemma medO_shift c ts ss x : medO f argsort theta_grid ts (map (map (shift c)) ss) x = shift c (medO f argsort theta_grid ts ss x).
  Proof.
    unfold medO. rewrite map_length.
    assert (E : map (fun k => oX (valO f argsort (nth k ts []) (nth k (map (map (shift c)) ss) []) x)) (seq 0 (length ss))
      = map oX (map (shift c) (map (fun k => valO f argsort (nth k ts []) (nth k ss []) x) (seq 0 (length ss))))).
    { rewrite !map_map. apply map_ext. intros k. change (@nil (option R)) with (map (shift c) []) at 2. rewrite map_nth, (valO_shift f argsort Hf). reflexivity. }
    rewrite E, <- (map_map (fun k => valO f argsort (nth k ts []) (nth k ss []) x) oX).
    destruct (nanmedian_shift c (map (fun k => valO f argsort (nth k ts []) (nth k ss []) x) (seq 0 (length ss)))) as (o & E1 & E2). rewrite E1, E2. destruct o; reflexivity.
  Qed.
  Lemma osub_shift c a b : osub (shift c a) (shift c b) = osub a b.
  Proof. destruct a, b; cbn; try reflexivity. f_equal. lra. Qed.
  Lemma sal_anom_shift c ts ss nos p name title :
    plot (map (map oX) (map (map (shift c)) ss)) (map (map oX) ts) nos p name title = plot (map (map oX) ss) (map (map oX) ts) nos p name title.
  Proof.
    unfold plot, sal_anom_plot. rewrite theta_base_eq. cbn [bind]. rewrite !(anomalies_oX f argsort Hf).
    assert (E : map (fun k => map (fun x => oX (osub (valO f argsort (nth k ts []) (nth k (map (map (shift c)) ss) []) x) (medO f argsort theta_grid ts (map (map (shift c)) ss) x))) theta_grid) (seq 0 (length (map (map (shift c)) ss)))
      = map (fun k => map (fun x => oX (osub (valO f argsort (nth k ts []) (nth k ss []) x) (medO f argsort theta_grid ts ss x))) theta_grid) (seq 0 (length ss))).
    { rewrite map_length. apply map_ext. intros k. apply map_ext. intros x. rewrite medO_shift. change (@nil (option R)) with (map (shift c) []) at 2. rewrite map_nth, (valO_shift f argsort Hf). now rewrite osub_shift. }
    rewrite E. reflexivity.
  Qed.

  (* profiles that differ by offsets *)
  Lemma somes_all (l : list R) : somes (map Some l) = l.
  Proof. induction l as [|x l IH]; cbn; [reflexivity|]. now rewrite IH. Qed.
  Lemma sal_anom_drift t s cs nos p name title :
    let ts := map (fun _ => t) cs in let ss := map (fun c => map (shift c) s) cs in
    completes (plot (map (map oX) ss) (map (map oX) ts) nos p name title) ->
    exists m known, is_median m cs
      /\ (forall xs ys, t = map Some xs -> s = map Some ys -> length xs = length ys -> 3 <= length xs -> StronglySorted Rlt xs ->
           argsort (map Fin xs) = seq 0 (length xs) -> forall x, known x = true <-> f (map Fin xs) (map Fin ys) (Fin x) <> NaN)
      /\ drawn (plot (map (map oX) ss) (map (map oX) ts) nos p name title) =
        flat_map (fun b => [Contours nos (map Fin theta_grid) (map (fun c => map (fun x => if known x : bool then Fin (c - m)%R else NaN) theta_grid) cs); Limits false (fst b) (snd b)]) (pp_bounds p).
  Proof.
    cbv zeta. intros Hc. set (ts := map (fun _ => t) cs) in *. set (ss := map (fun c => map (shift c) s) cs) in *.
    assert (Hne : cs <> []).
    { apply sal_anom_outcome in Hc as [(t0 & Ht & _) _]. unfold ts in Ht. destruct cs; [contradiction|discriminate]. }
    destruct (nanmedian_oX (map Some cs)) as [[En _]|(sc & Hp & Hs & Hnes & _)]; [rewrite somes_all in En; contradiction|]. rewrite somes_all in Hp.
    exists (middle sc), (fun x => match val t s x with Some _ => true | None => false end).
    split. { eapply is_median_perm; [exact Hp|]. now apply middle_median. }
    split.
    { intros xs ys -> -> Hl Hn Hasc Hsort x. unfold valO. cbv zeta. rewrite goodO_plain by assumption.
      rewrite map_fst_combine, map_snd_combine, combine_length by assumption.
      assert (E3 : Nat.leb 3 (Nat.min (length xs) (length ys)) = true) by (apply Nat.leb_le; lia). rewrite E3.
      destruct (Hf xs ys x) as (o & E & _). rewrite E. destruct o; cbn; split; congruence. }
    rewrite (sal_anom_contours _ _ _ _ _ _ Hc). apply flat_map_ext. intros b. f_equal. f_equal.
    assert (Hn : length ss = length cs) by (unfold ss; now rewrite map_length).
    assert (Hv : forall k x, k < length cs -> val (nth k ts []) (nth k ss []) x = shift (nth k cs 0%R) (val t s x)).
    { intros k x Hk. unfold ts, ss. rewrite (nth_map (fun _ => t) cs k [] 0%R) by assumption. rewrite (nth_map (fun c => map (shift c) s) cs k [] 0%R) by assumption.
      apply (valO_shift f argsort Hf). }
    assert (Hm : forall x, medO f argsort theta_grid ts ss x = shift (middle sc) (val t s x)).
    { intros x. unfold medO. rewrite Hn.
      assert (E : map (fun k => oX (valO f argsort (nth k ts []) (nth k ss []) x)) (seq 0 (length cs)) = map oX (map (fun c => shift c (val t s x)) cs)).
      { rewrite <- (map_seq_nth (fun c => shift c (val t s x)) 0%R cs). rewrite map_map. apply map_ext_in. intros k Hk. apply in_seq in Hk. f_equal. apply Hv. lia. }
      rewrite E. destruct (val t s x) as [y|].
      - assert (Es : map (fun c => shift c (Some y)) cs = map (shift y) (map Some cs)).
        { rewrite map_map. apply map_ext. intros c. cbn. f_equal. lra. }
        rewrite Es. destruct (nanmedian_oX (map (shift y) (map Some cs))) as [[En _]|(s2 & Hp2 & Hs2 & _ & E2)].
        + exfalso. rewrite somes_shift, somes_all in En. apply map_eq_nil in En. contradiction.
        + rewrite E2. rewrite somes_shift, somes_all in Hp2. cbn. f_equal. rewrite Rplus_comm, <- middle_shift by assumption. f_equal.
          apply sorted_perm_unique; [assumption|now apply sorted_shift|]. rewrite Hp2. apply Permutation_map. now apply Permutation_sym.
      - assert (Es : map oX (map (fun c : R => shift c None) cs) = map oX (map (fun _ => None) cs)) by reflexivity. rewrite Es.
        destruct (nanmedian_oX (map (fun _ : R => None) cs)) as [[_ E2]|(s2 & Hp2 & _ & Hn2 & _)]; [now rewrite E2|]. exfalso.
        assert (Esn : somes (map (fun _ : R => @None R) cs) = []) by (clear; induction cs as [|c l IH]; [reflexivity|exact IH]).
        rewrite Esn in Hp2. apply Permutation_sym, Permutation_nil in Hp2. contradiction. }
    unfold anomaliesO. rewrite Hn. rewrite <- (map_seq_nth (fun c => map (fun x => if match val t s x with Some _ => true | None => false end then Fin (c - middle sc) else NaN) theta_grid) 0%R cs).
    apply map_ext_in. intros k Hk. apply in_seq in Hk. apply map_ext. intros x. rewrite Hm, Hv by lia. destruct (val t s x) as [y|]; cbn; [|reflexivity]. f_equal. lra.
  Qed.
End AnomalyPlot.

(* ---- a single profile ---- *)
Section Single.
  Context {T} {NT : Num T}.
  Variable interp1d : list T -> list T -> T -> res T.
  Variable f : list T -> list T -> T -> T.
  Variable argsort : list T -> list nat.
  Variable show_bounds : T * T -> string.
  Lemma sal_anom_single sal ptmp nos p name title : length sal = 1 -> pp_bounds p <> [] ->
    ~ completes (sal_anom_plot f argsort show_bounds sal ptmp nos p name title) /\
    drawn (sal_anom_plot f argsort show_bounds sal ptmp nos p name title) = [] /\
    saved_names (sal_anom_plot f argsort show_bounds sal ptmp nos p name title) = [].
  Proof.
    intros Hl Hb. unfold sal_anom_plot. destruct theta_base as [base|e]; [|split; [discriminate|split; reflexivity]]. cbn [bind].
    unfold anomalies. destruct (profile_range ptmp) as [[a b]|e]; [|split; [discriminate|split; reflexivity]]. cbn [bind pbind].
    destruct (pp_bounds p) as [|b0 bs]; [contradiction|]. cbn [pfor fold_right fst snd].
    unfold contours. rewrite map_length, seq_length, Hl. cbn [Nat.leb andb]. split; [discriminate|split; reflexivity].
  Qed.
  Lemma saved_pseq_in (p q : prog (item T)) g : In g (saved_names (pseq p q)) -> In g (saved_names p) \/ completes p /\ In g (saved_names q).
  Proof.
    unfold pseq, completes. destruct (snd p) eqn:E; [auto|]. unfold saved_names. cbn [fst]. rewrite flat_map_app, in_app_iff. tauto.
  Qed.
  Lemma dashboard_single src pos d c k levels p name : length (src_sal src) = 1 -> pp_bounds p <> [] ->
    let dash := plot_diagnostics interp1d f argsort show_bounds src pos d c k levels p name in
    ~ completes dash /\
    forall g, In g (saved_names dash) -> g = plot_file p name "_trajectory" \/ g = plot_file p name "_uncalibrated_theta_sal".
  Proof.
    intros Hl Hb. cbv zeta. unfold plot_diagnostics. destruct (selected_hist d) as [|h hs]; [split; [discriminate|intros g []]|].
    set (clim := map (fun h => (east_west (fst (fst h)), snd (fst h))) (h :: hs)). destruct (float_rows _ _ _) as [floats|e]; [|split; [discriminate|intros g []]]. cbn [pbind].
    match goal with |- ~ completes (pseq ?a (pbind ?r ?g)) /\ _ => destruct r as [q|e] eqn:Eq end; cbn [pbind].
    2:{ split.
        - intros Hc. apply completes_pseq in Hc as [_ Hc]. discriminate.
        - intros g Hg. apply saved_pseq_in in Hg as [Hg|[_ []]]. apply saved_pseq_in in Hg as [Hg|[_ []]].
          left. now apply (trajectory_saves floats clim p name). }
    clear Eq. destruct q as [[[[[t1 t2] t3] t4] t5] th].
    destruct (sal_anom_single (src_sal src) (src_ptmp src) (src_no src) p name "uncalibrated" Hl Hb) as (Hn & _ & Hs).
    split.
    - intros Hc. apply completes_pseq in Hc as [_ Hc]. apply completes_pseq in Hc as [_ Hc]. apply completes_pseq in Hc as [Hc _]. contradiction.
    - intros g Hg. apply saved_pseq_in in Hg as [Hg|[_ Hg]].
      + apply saved_pseq_in in Hg as [Hg|[_ []]]. left. now apply (trajectory_saves floats clim p name).
      + apply saved_pseq_in in Hg as [Hg|[_ Hg]].
        * right. apply theta_sal_saves in Hg. exact Hg.
        * apply saved_pseq_in in Hg as [Hg|[Hc _]]; [|contradiction]. rewrite Hs in Hg. contradiction.
  Qed.
End Single.
