(* Proofs for find_10thetas: salinities on the levels, variances, assembled statements *)
From Coq Require Import ZArith List Bool Reals Lra Lia Permutation Sorted FunctionalExtensionality.
From Flocq Require Import Core.Raux.
From Verif Require Import Num Np NumFacts NpFacts Finders Spec_Utilities Spec_Finders Proofs_Besthist Proofs_Thetas.
Import ListNotations.
Local Open Scope R_scope.

Definition eqo (o : option R) (v : R) : bool := match o with Some w => Reqb w v | None => false end.
Lemma eqo_true o v : eqo o v = true <-> o = Some v.
Proof.
  destruct o as [w|]; cbn; [|split; discriminate]. rewrite Reqb_true. split; congruence.
Qed.

Lemma near_gen (D : nat -> XR) (f : XR -> XR) (p : XR -> bool) (e : nat -> option R) ks :
  (forall k, In k ks -> f (D k) = oX (e k)) -> (forall k, In k ks -> p (D k) = nltb (Fin 0) (oX (e k))) ->
  (filter p (map D ks) = [] /\ forall k v, In k ks -> e k = Some v -> v <= 0) \/
  (exists d r m0, filter p (map D ks) = d :: r /\ nanmin (map f (d :: r)) = Fin m0 /\ 0 < m0
     /\ (forall k v, In k ks -> e k = Some v -> 0 < v -> m0 <= v)
     /\ (exists k, In k ks /\ e k = Some m0)
     /\ map snd (filter (fun dk => neqb (f (fst dk)) (Fin m0)) (combine (map D ks) ks)) = filter (fun k => eqo (e k) m0) ks).
Proof.
  intros Hf Hp.
  assert (Ef : filter p (map D ks) = map D (filter (fun k => nltb (Fin 0) (oX (e k))) ks)).
  { clear Hf. induction ks as [|k ks IH]; [reflexivity|]. cbn [map filter]. rewrite (Hp k) by now left.
    rewrite IH by (intros; apply Hp; now right). destruct (nltb (Fin 0) (oX (e k))); reflexivity. }
  set (fs := filter (fun k => nltb (Fin 0) (oX (e k))) ks) in *.
  assert (Hfs : forall k, In k fs <-> In k ks /\ exists v, e k = Some v /\ 0 < v).
  { intros k. unfold fs. rewrite filter_In. destruct (e k) as [v|]; cbn.
    - rewrite Rltb_true. split; intros [A B]; split; auto; [eauto|]. destruct B as (w & E & B). injection E as <-. auto.
    - split; [intros [_ C]; discriminate|intros (_ & v & C & _); discriminate]. }
  destruct fs as [|k0 fr] eqn:Efs.
  - left. split; [now rewrite Ef|]. intros k v Hk Ev. destruct (Rle_dec v 0); auto. exfalso.
    apply (Hfs k). split; auto. exists v. split; auto. lra.
  - right. exists (D k0), (map D fr). rewrite Ef. cbn [map].
    assert (Em : map f (D k0 :: map D fr) = map oX (map e (k0 :: fr))).
    { change (D k0 :: map D fr) with (map D (k0 :: fr)). rewrite !map_map. apply map_ext_in. intros k Hk.
      apply Hf. now apply Hfs. }
    change (f (D k0) :: map f (map D fr)) with (map f (D k0 :: map D fr)).
    rewrite Em. destruct (nanmin_oX (map e (k0 :: fr))) as [[E _]|(m0 & E0 & I0 & L0)].
    { exfalso. destruct (proj1 (Hfs k0) (or_introl eq_refl)) as (_ & v & Ev & _).
      cbn [map somes] in E. rewrite Ev in E. discriminate. }
    exists m0. split; auto. split; auto.
    apply in_map_iff in I0 as (k1 & E1 & Hk1). apply Hfs in Hk1 as (Hk1 & w & Ew & Hw).
    assert (w = m0) by congruence. subst w. split; auto. split.
    { intros k v Hk Ev Hv. apply L0. apply in_map_iff. exists k. split; auto. apply Hfs. eauto. }
    split; [eauto|].
    clear -Hf. induction ks as [|k ks IH]; [reflexivity|]. cbn [map combine filter fst].
    rewrite (Hf k) by now left.
    assert (E : neqb (oX (e k)) (Fin m0) = eqo (e k) m0) by (destruct (e k); reflexivity). rewrite E.
    assert (IH' : map snd (filter (fun dk => neqb (f (fst dk)) (Fin m0)) (combine (map D ks) ks)) = filter (fun k => eqo (e k) m0) ks)
      by (apply IH; intros; apply Hf; now right).
    destruct (eqo (e k) m0); cbn [map snd]; rewrite IH'; reflexivity.
Qed.

(* one neighbour, no neighbour, or two equally close ones *)
Definition farM (m : nat -> nat -> option R) (nr : nat) (th : R) (j k : nat) (x : R) (k' : nat) (x' : R) : Prop :=
  (k' < nr)%nat /\ (k' = S k \/ k = S k') /\ m k' j = Some x' /\ ((x < th /\ x < x') \/ (th < x /\ x' < x)).

Lemma in_interval nr ti k : (ti < nr)%nat ->
  (In k (seq (ti - 1) (Nat.min (ti + 1) (nr - 1) + 1 - (ti - 1))) <-> (k < nr)%nat /\ (k = ti \/ k = S ti \/ ti = S k)).
Proof. intros Ht. rewrite in_seq. lia. Qed.

Lemma filter_one {A} (p : A -> bool) l : NoDup l ->
  match filter p l with
  | [a] => In a l /\ p a = true /\ forall b, In b l -> p b = true -> b = a
  | a :: b :: _ => In a l /\ In b l /\ p a = true /\ p b = true /\ a <> b
  | [] => forall b, In b l -> p b = false
  end.
Proof.
  intros Hn. assert (Hn' : NoDup (filter p l)) by now apply NoDup_filter.
  pose proof (fun x => filter_In p x l) as F. destruct (filter p l) as [|a [|b r]].
  - intros b Hb. destruct (p b) eqn:E; auto. exfalso. apply (F b). auto.
  - destruct (proj1 (F a) (or_introl eq_refl)). split; auto. split; auto.
    intros b Hb Pb. destruct (proj2 (F b) (conj Hb Pb)) as [->|[]]. auto.
  - destruct (proj1 (F a) (or_introl eq_refl)). destruct (proj1 (F b) (or_intror (or_introl eq_refl))).
    repeat (split; auto). intros ->. inversion Hn'; subst. apply H5. now left.
Qed.

Section SalAt.
  Variable interp1d : list XR -> list XR -> XR -> res XR.
  Variables (nr : nat) (m s : nat -> nat -> option R) (th : R) (j ti : nat) (x : R).
  Hypothesis Hti : (ti < nr)%nat.
  Hypothesis Hx : m ti j = Some x.

  Let ks := seq (ti - 1) (Nat.min (ti + 1) (nr - 1) + 1 - (ti - 1)).
  Let run := sal_at interp1d nr (oM s) (oM m) (Fin th) j ti.

  (* e > 0 marks the far side *)
  Lemma sal_at_side (e : nat -> option R) :
    (forall k v, In k ks -> e k = Some v -> 0 < v -> exists y, farM m nr th j ti x k y /\ v = Rabs (y - x)) ->
    (forall k y, farM m nr th j ti x k y -> e k = Some (Rabs (y - x)) /\ 0 < Rabs (y - x)) ->
    (exists (D : nat -> XR) (f : XR -> XR) (p : XR -> bool), (forall k, In k ks -> f (D k) = oX (e k)) /\ (forall k, In k ks -> p (D k) = nltb (Fin 0) (oX (e k))) /\
      run = match
          (match filter p (map D ks) with
           | [] => [ti]
           | sl => map snd (filter (fun dk => neqb (f (fst dk)) (nanmin (map f sl))) (combine (map D ks) ks))
           end) with
         | [k] => if negb (Nat.eqb k ti) && negb (nisnan (oM s ti j)) && negb (nisnan (oM s k j))
                     && negb (nisnan (oM m ti j)) && negb (nisnan (oM m k j))
                  then interp1d [oM m ti j; oM m k j] [oM s ti j; oM s k j] (Fin th) else Ok (oM s ti j)
         | _ => Raise ValueError
         end) ->
    ((forall k y, ~ farM m nr th j ti x k y) /\ run = Ok (oX (s ti j)))
    \/ (exists k y, farM m nr th j ti x k y
          /\ (forall k'' y'', farM m nr th j ti x k'' y'' -> k'' <> k -> Rabs (y - x) < Rabs (y'' - x))
          /\ run = match s ti j, s k j with
                   | Some a, Some b => interp1d [Fin x; Fin y] [Fin a; Fin b] (Fin th)
                   | _, _ => Ok (oX (s ti j))
                   end)
    \/ ((exists k y k' y', k <> k' /\ farM m nr th j ti x k y /\ farM m nr th j ti x k' y' /\ y = y') /\ run = Raise ValueError).
  Proof.
    intros He1 He2 (D & f & p & Hf & Hp & ->).
    assert (Hki : forall k y, farM m nr th j ti x k y -> In k ks).
    { intros k y (Hk & Ha & _). apply in_interval; auto. }
    destruct (near_gen D f p e ks Hf Hp) as [[E Hno]|(d & r & m0 & E & Em & Hm0 & Hmin & (k1 & Hk1 & Ek1) & EK)].
    - left. split.
      + intros k y Hfar. destruct (He2 k y Hfar) as [Ee Pos]. specialize (Hno k _ (Hki _ _ Hfar) Ee). lra.
      + rewrite E. rewrite Nat.eqb_refl. reflexivity.
    - rewrite E, Em, EK. right.
      pose proof (filter_one (fun k => eqo (e k) m0) ks (seq_NoDup _ _)) as F1.
      destruct (filter (fun k => eqo (e k) m0) ks) as [|a [|b rr]].
      + exfalso. specialize (F1 k1 Hk1). rewrite (proj2 (eqo_true _ _) Ek1) in F1. discriminate.
      + left. destruct F1 as (Ha & Pa & Ua). apply eqo_true in Pa.
        destruct (He1 a m0 Ha Pa Hm0) as (y & Hfar & Ev). exists a, y. split; auto. split.
        * intros k'' y'' Hfar' Hne. destruct (He2 _ _ Hfar') as [Ee Pos].
          pose proof (Hmin k'' _ (Hki _ _ Hfar') Ee Pos) as Hle.
          destruct (Req_dec (Rabs (y'' - x)) m0) as [Eq|]; [|lra]. exfalso. apply Hne. apply Ua; [now apply (Hki _ y'')|].
          apply eqo_true. now rewrite Ee, Eq.
        * destruct Hfar as (_ & Hadj & Ey & _).
          destruct (Nat.eqb_spec a ti); [lia|]. unfold oM. rewrite Hx, Ey.
          destruct (s ti j), (s a j); reflexivity.
      + right. destruct F1 as (Ha & Hb & Pa & Pb & Hab). apply eqo_true in Pa, Pb. split; auto.
        destruct (He1 a m0 Ha Pa Hm0) as (y & Hfa & Ea). destruct (He1 b m0 Hb Pb Hm0) as (y' & Hfb & Eb).
        exists a, y, b, y'. repeat (split; [assumption|]).
        destruct Hfa as (_ & _ & _ & Sa). destruct Hfb as (_ & _ & _ & Sb). rewrite Ea in Eb.
        unfold Rabs in Eb. destruct (Rcase_abs _) in Eb; destruct (Rcase_abs _) in Eb; lra.
  Qed.

  Lemma sal_at_cases :
    ((forall k y, ~ farM m nr th j ti x k y) /\ run = Ok (oX (s ti j)))
    \/ (exists k y, farM m nr th j ti x k y
          /\ (forall k'' y'', farM m nr th j ti x k'' y'' -> k'' <> k -> Rabs (y - x) < Rabs (y'' - x))
          /\ run = match s ti j, s k j with
                   | Some a, Some b => interp1d [Fin x; Fin y] [Fin a; Fin b] (Fin th)
                   | _, _ => Ok (oX (s ti j))
                   end)
    \/ ((exists k y k' y', k <> k' /\ farM m nr th j ti x k y /\ farM m nr th j ti x k' y' /\ y = y') /\ run = Raise ValueError).
  Proof.
    assert (Rd : run = sal_at interp1d nr (oM s) (oM m) (Fin th) j ti) by reflexivity.
    unfold sal_at in Rd. fold ks in Rd.
    assert (Ex : oM m ti j = Fin x) by (unfold oM; now rewrite Hx). rewrite Ex in Rd.
    cbn [nltb neqb XR_Num xltb xeqb] in Rd.
    destruct (Rltb th x) eqn:E1.
    - apply Rltb_true in E1.
      apply (sal_at_side (fun k => option_map (fun y => x - y) (m k j))).
      + intros k v Hk Ev Hv. apply in_interval in Hk as [Hk Hadj]; auto. destruct (m k j) as [y|] eqn:Ey; [|discriminate].
        cbn in Ev. injection Ev as <-. exists y. split.
        * split; auto. split; [|split; auto; right; lra]. destruct Hadj as [->|Hadj]; auto. exfalso. rewrite Hx in Ey. injection Ey as <-. lra.
        * rewrite Rabs_minus_sym. rewrite Rabs_pos_eq; lra.
      + intros k y (Hk & Hadj & Ey & Hs). rewrite Ey. cbn. rewrite Rabs_minus_sym, Rabs_pos_eq by lra. split; auto. lra.
      + exists (fun k => nsub (Fin x) (oM m k j)), (fun d => d), (fun d => nltb (nofZ 0) d). split; [|split].
        * intros k Hk. unfold oM. destruct (m k j); reflexivity.
        * intros k Hk. unfold oM. destruct (m k j); reflexivity.
        * rewrite Rd. cbn [bind]. unfold oM. rewrite Hx. fold (oM m). fold (oM s). reflexivity.
    - apply Rltb_false in E1. destruct (Rltb x th) eqn:E2.
      + apply Rltb_true in E2.
        apply (sal_at_side (fun k => option_map (fun y => y - x) (m k j))).
        * intros k v Hk Ev Hv. apply in_interval in Hk as [Hk Hadj]; auto. destruct (m k j) as [y|] eqn:Ey; [|discriminate].
          cbn in Ev. injection Ev as <-. exists y. split.
          -- split; auto. split; [|split; auto; left; lra]. destruct Hadj as [->|Hadj]; auto. exfalso. rewrite Hx in Ey. injection Ey as <-. lra.
          -- rewrite Rabs_pos_eq; lra.
        * intros k y (Hk & Hadj & Ey & Hs). rewrite Ey. cbn. rewrite Rabs_pos_eq by lra. split; auto. lra.
        * exists (fun k => nsub (Fin x) (oM m k j)), nopp, (fun d => nltb d (nofZ 0)). split; [|split].
          -- intros k Hk. unfold oM. destruct (m k j); cbn; auto. f_equal. lra.
          -- intros k Hk. unfold oM. destruct (m k j) as [y|]; cbn; auto.
             destruct (Rltb (x - y) 0) eqn:A; destruct (Rltb 0 (y - x)) eqn:B; auto; rb; lra.
          -- rewrite Rd. cbn [bind]. unfold oM. rewrite Hx. fold (oM m). fold (oM s). reflexivity.
      + apply Rltb_false in E2. assert (x = th) by lra.
        destruct (Reqb x th) eqn:E3; [|apply Reqb_false in E3; contradiction].
        left. split.
        * intros k y (_ & _ & _ & Hs). lra.
        * rewrite Rd. cbn [bind]. rewrite Nat.eqb_refl. reflexivity.
  Qed.
End SalAt.

(* ---- rarely sampled levels (C72) ---- *)
Lemma fold_blank bad (v : list XR) l : (forall i, In i bad -> (i < length v)%nat) -> (l < length v)%nat ->
  nth l (fold_left (fun v i => set_nth 0 NaN (set_nth i NaN v)) bad v) NaN
  = if existsb (Nat.eqb l) bad || (Nat.eqb l 0 && negb (Nat.eqb (length bad) 0)) then NaN else nth l v NaN.
Proof.
  revert v. induction bad as [|b bad IH]; intros v Hb Hl; cbn [fold_left existsb length].
  - now rewrite andb_false_r.
  - rewrite IH.
    2:{ intros i Hi. rewrite !set_nth_length. apply Hb. now right. }
    2:{ now rewrite !set_nth_length. }
    change (negb (Nat.eqb (S (length bad)) 0)) with true. rewrite andb_true_r.
    assert (Hbv : (b < length v)%nat) by (apply Hb; now left).
    clear IH. destruct (Nat.eqb_spec l 0) as [E0|N0].
    + rewrite E0 in *. rewrite orb_true_r. rewrite nth_set_nth_eq by (rewrite set_nth_length; auto).
      match goal with |- (if ?c then _ else _) = _ => destruct c end; reflexivity.
    + rewrite nth_set_nth_neq by auto. cbn [andb]. rewrite !orb_false_r.
      destruct (existsb (Nat.eqb l) bad); [now rewrite orb_true_r|]. rewrite orb_false_r.
      destruct (Nat.eqb_spec l b) as [Eb|N]; [rewrite Eb; now apply nth_set_nth_eq|apply nth_set_nth_neq; auto].
Qed.

Lemma drop_nan_present l : drop_nan l = present l.
Proof. reflexivity. Qed.

Lemma mean_fin l : l <> [] -> mean (map Fin l) = Fin (mean_of l).
Proof.
  intros Hl. unfold mean, nlen. rewrite nsum_fin, map_length.
  change (nofZ (Z.of_nat (length l))) with (Fin (IZR (Z.of_nat (length l)))). rewrite <- INR_IZR_INZ.
  rewrite ndiv_fin; [reflexivity|]. apply not_0_INR. destruct l; simpl; congruence.
Qed.

Lemma var1_fin l : (2 <= length l)%nat -> var1 (map Fin l) = Fin (sample_var l).
Proof.
  intros Hl. unfold var1. rewrite map_length. destruct (Nat.leb_spec (length l) 1); [lia|].
  unfold var_ddof. rewrite mean_fin by (destruct l; simpl in Hl; [lia|discriminate]).
  rewrite map_map.
  assert (E : map (fun x => nsq (nsub (Fin x) (Fin (mean_of l)))) l = map Fin (map (fun x => (x - mean_of l) ^ 2) l)).
  { rewrite map_map. apply map_ext. intros a. cbn. f_equal. ring. }
  rewrite E, nsum_fin. unfold nlen. rewrite map_length. cbn [nsub nofZ XR_Num xsub].
  rewrite <- INR_IZR_INZ. rewrite ndiv_fin; [reflexivity|].
  apply lt_INR in H. simpl INR in H. lra.
Qed.

Lemma rare_spec (S : list (list XR)) (pct : R) :
  let num_good := map (fun r => nofZ (Z.of_nat (length (drop_nan r)))) S in
  let percent := map (fun g => if negb (neqb (nanmax num_good) (nofZ 0)) then ndiv g (nanmax num_good) else nnan) num_good in
  forall l, In l (argwhere (fun p => nltb p (Fin pct)) percent) <-> rare S pct l.
Proof.
  cbv zeta. intros l.
  set (cnt := fun r : list XR => INR (length (present r))).
  assert (En : map (fun r : list XR => nofZ (Z.of_nat (length (drop_nan r)))) S = map oX (map (fun r => Some (cnt r)) S)).
  { rewrite map_map. apply map_ext. intros r. unfold cnt. rewrite INR_IZR_INZ. reflexivity. }
  rewrite En. rewrite (argwhere_spec NaN), !map_length.
  unfold rare. destruct S as [|r0 S'] eqn:ES.
  { cbn [length]. split; [intros [C _]; lia|intros [C _]; lia]. }
  rewrite <- ES in *. clear ES r0 S'.
  destruct (lt_dec l (length S)) as [Hl|Hl]; [|tauto].
  destruct (nanmax_oX (map (fun r => Some (cnt r)) S)) as [[E _]|(mx & Em & Im & Lm)].
  { exfalso. destruct S; simpl in Hl, E; [lia|discriminate]. }
  rewrite Em. apply in_map_iff in Im as (rm & Er & Hrm). injection Er as <-.
  apply In_nth with (d := []) in Hrm as (l' & Hl' & <-).
  assert (Mx : forall k, (k < length S)%nat -> cnt (nth k S []) <= cnt (nth l' S [])).
  { intros k Hk. apply Lm. apply in_map_iff. exists (nth k S []). split; auto. now apply nth_In. }
  rewrite !(nth_map _ _ _ _ NaN) by (now rewrite !map_length).
  rewrite (nth_map oX _ _ _ None) by (now rewrite map_length).
  rewrite (nth_map _ _ _ _ []) by auto. cbn [oX].
  cbn [neqb nofZ XR_Num xeqb].
  destruct (Reqb (cnt (nth l' S [])) 0) eqn:E0; cbn [negb].
  - apply Reqb_true in E0. cbn. split; [intros [_ C]; discriminate|].
    intros (_ & k & Hk & Pk & _). exfalso. specialize (Mx k Hk). apply lt_INR in Pk. simpl in Pk. unfold cnt in *. lra.
  - apply Reqb_false in E0. rewrite ndiv_fin by auto. cbn [nltb xltb XR_Num]. rewrite Rltb_true.
    assert (Pm : 0 < cnt (nth l' S [])) by (unfold cnt in *; pose proof (pos_INR (length (present (nth l' S [])))); lra).
    split.
    + intros [_ H]. split; auto. exists l'. split; auto. split; [apply INR_lt; exact Pm|]. split.
      * intros k Hk. apply INR_le. now apply Mx.
      * unfold cnt in *. apply (Rmult_lt_compat_r _ _ _ Pm) in H. unfold Rdiv in H. rewrite Rmult_assoc, Rinv_l, Rmult_1_r in H by auto. exact H.
    + intros (_ & k & Hk & Pk & Mk & H). split; auto.
      assert (Ek : cnt (nth k S []) = cnt (nth l' S [])).
      { apply Rle_antisym; [now apply Mx|]. unfold cnt. apply le_INR. now apply Mk. }
      unfold cnt in *. rewrite Ek in H.
      apply (Rmult_lt_reg_r (INR (length (present (nth l' S []))))); auto. unfold Rdiv. rewrite Rmult_assoc, Rinv_l, Rmult_1_r by auto. exact H.
Qed.

Lemma blank_rare_spec (S : list (list XR)) pct :
  length (blank_rare (Fin pct) S) = length S /\
  forall l, (l < length S)%nat ->
    ((rare S pct l \/ (l = 0%nat /\ exists l', rare S pct l')) -> nth l (blank_rare (Fin pct) S) NaN = NaN)
    /\ (~ rare S pct l -> ~ (l = 0%nat /\ exists l', rare S pct l') ->
         ((length (present (nth l S [])) <= 1)%nat -> nth l (blank_rare (Fin pct) S) NaN = NaN)
         /\ forall vs, present (nth l S []) = map Fin vs -> (2 <= length vs)%nat ->
              nth l (blank_rare (Fin pct) S) NaN = Fin (sample_var vs)).
Proof.
  unfold blank_rare. pose proof (rare_spec S pct) as RS. cbv zeta in RS.
  set (bad := argwhere _ _) in *. clearbody bad. change (@nnan XR XR_Num) with NaN in *.
  assert (Lb : forall i, In i bad -> (i < length (map (fun r => var1 (drop_nan r)) S))%nat).
  { intros i Hi. rewrite map_length. apply RS in Hi. apply Hi. }
  assert (G : forall bad (v : list XR), length (fold_left (fun v i => set_nth 0 NaN (set_nth i NaN v)) bad v) = length v).
  { clear. intros bad. induction bad as [|b bad' IH]; intros v; cbn [fold_left]; auto. rewrite IH. now rewrite !set_nth_length. }
  split; [rewrite G; apply map_length|].
  intros l Hl. rewrite fold_blank by (auto; now rewrite map_length).
  assert (Eb : existsb (Nat.eqb l) bad = true <-> rare S pct l).
  { rewrite existsb_exists, <- RS. split.
    - intros (y & Hy & E). apply Nat.eqb_eq in E. now subst.
    - intros Hi. exists l. split; auto. apply Nat.eqb_refl. }
  assert (E0 : Nat.eqb l 0 && negb (Nat.eqb (length bad) 0) = true <-> (l = 0%nat /\ exists l', rare S pct l')).
  { rewrite andb_true_iff, negb_true_iff, Nat.eqb_eq, Nat.eqb_neq. split; intros [A B]; split; auto.
    - destruct bad as [|b r]; [exfalso; now apply B|]. exists b. apply RS. now left.
    - destruct B as (l' & B). apply RS in B. destruct bad; [destruct B|discriminate]. }
  split.
  - intros H. assert (E : existsb (Nat.eqb l) bad || (Nat.eqb l 0 && negb (Nat.eqb (length bad) 0)) = true)
      by (apply orb_true_iff; tauto). now rewrite E.
  - intros H1 H2.
    assert (E : existsb (Nat.eqb l) bad || (Nat.eqb l 0 && negb (Nat.eqb (length bad) 0)) = false).
    { apply orb_false_iff. split; apply not_true_is_false; [rewrite Eb|rewrite E0]; assumption. }
    rewrite E. rewrite (nth_map _ _ _ _ []) by auto. change (drop_nan (nth l S [])) with (present (nth l S [])). split.
    + intros Hc. unfold var1. destruct (Nat.leb_spec (length (present (nth l S []))) 1); [reflexivity|lia].
    + intros vs Ev Hv. rewrite Ev. now apply var1_fin.
Qed.

(* ---- assembling ---- *)
Lemma mapM_ok_Forall2 {A B} (f : A -> res B) l bs : mapM f l = Ok bs -> Forall2 (fun a b => f a = Ok b) l bs.
Proof.
  revert bs. induction l as [|a l IH]; intros bs E; cbn [mapM] in E.
  - injection E as <-. constructor.
  - apply bind_ok in E as (b & Eb & E). apply bind_ok in E as (bs' & Ebs & E). injection E as <-. constructor; auto.
Qed.
Lemma Forall2_nth {A B} (P : A -> B -> Prop) l l' da db i : Forall2 P l l' -> (i < length l)%nat -> P (nth i l da) (nth i l' db).
Proof.
  intros F. revert i. induction F as [|a b l l' Hab F IH]; intros i Hi; [simpl in Hi; lia|].
  destruct i; [exact Hab|]. apply IH. simpl in Hi. lia.
Qed.
Lemma mapM_raise {A B} (f : A -> res B) l e : mapM f l = Raise e -> exists a, In a l /\ f a = Raise e.
Proof.
  induction l as [|a l IH]; cbn [mapM]; [discriminate|]. destruct (f a) as [b|e'] eqn:Ea; cbn [bind].
  - destruct (mapM f l) as [bs|e''] eqn:El; cbn [bind]; [discriminate|]. intros E. injection E as ->.
    destruct (IH eq_refl) as (x & Hx & Ex). exists x. split; auto. now right.
  - intros E. injection E as ->. exists a. split; auto. now left.
Qed.

Lemma ok_pair {A B} (a c : A) (b d : B) : Ok (a, b) = Ok (c, d) -> a = c /\ b = d.
Proof. intros E. injection E as -> ->. auto. Qed.
Lemma pair_pair {A B C} (a a' : A) (b b' : B) (c c' : C) : (a, b, c) = (a', b', c') -> a = a' /\ b = b' /\ c = c'.
Proof. intros E. injection E as -> -> ->. auto. Qed.

Section Assemble.
  Variable interp1d : list XR -> list XR -> XR -> res XR.
  Variables (d : series) (nr nc : nat) (pct : R).
  Let P := mask d (d_pres d).
  Let S0 := mask d (d_sal d).
  Let M := mask d (d_ptmp d).
  Let sal_entry th jo := match snd jo with
     | Some i => sal_at interp1d nr (oM S0) (oM M) th (fst jo) i
     | None => Ok nnan
     end.

  Lemma run_unfold : thetas_run interp1d d nr nc pct =
    (let* levels := pres_levels nr nc (oM P) (oM M) in
    let* interp_t := mapM (fun pl => mapM (interp_entry interp1d nr (oM P) (oM M) pl) (seq 0 nc)) levels in
    let thetas := map theta_level interp_t in
    let indices := map (fun th => map (theta_index nr (oM M) th) (seq 0 nc)) thetas in
    let* sal_temp := mapM (fun ti => mapM (sal_entry (fst ti)) (combine (seq 0 nc) (snd ti))) (combine thetas indices) in
    let var := blank_rare (Fin pct) sal_temp in
    let sel := select_min 10 var in
    let pick {A} (d : A) (l : list A) := map (fun o => match o with Some i => nth i l d | None => d end) sel in
    Ok (mkThetas (pick nnan thetas) (pick nnan levels) (pick (repeat None nc) indices) var thetas,
        (oM P, oM S0, oM M))).
  Proof.
    unfold thetas_run, find_10thetas.
    change (fun i j => oX (d_sal d i j)) with (oM (d_sal d)). change (fun i j => oX (d_ptmp d i j)) with (oM (d_ptmp d)).
    change (fun i j => oX (d_pres d i j)) with (oM (d_pres d)). change (fun i j => oX (d_la d i j)) with (oM (d_la d)).
    rewrite exclude_eval. reflexivity.
  Qed.

  Lemma run_ok r mats : thetas_run interp1d d nr nc pct = Ok (r, mats) ->
    exists levels S,
      length levels = length (theta_levels r)
      /\ length S = length (theta_levels r)
      /\ (forall l j, (l < length (theta_levels r))%nat -> (j < nc)%nat ->
            sal_entry (nth l (theta_levels r) NaN) (j, theta_index nr (oM M) (nth l (theta_levels r) NaN) j) = Ok (nth j (nth l S []) NaN))
      /\ (forall l, (l < length S)%nat -> length (nth l S []) = nc)
      /\ var_sal_theta r = blank_rare (Fin pct) S
      /\ (let sel := select_min 10 (var_sal_theta r) in
          t_levels r = map (fun o => match o with Some i => nth i (theta_levels r) NaN | None => NaN end) sel
          /\ p_levels r = map (fun o => match o with Some i => nth i levels NaN | None => NaN end) sel
          /\ th_index r = map (fun o => match o with
               | Some i => map (theta_index nr (oM M) (nth i (theta_levels r) NaN)) (seq 0 nc) | None => repeat None nc end) sel)
      /\ mats = (oM P, oM S0, oM M).
  Proof.
    rewrite run_unfold. intros E. apply bind_ok in E as (levels & El & E). apply bind_ok in E as (it & Ei & E).
    apply bind_ok in E as (S & Es & E). cbv zeta in E. apply ok_pair in E as [Er Em]. subst r. cbn [theta_levels var_sal_theta t_levels p_levels th_index].
    set (ths := map theta_level it) in *.
    set (indices := map (fun th => map (theta_index nr (oM M) th) (seq 0 nc)) ths) in *.
    assert (Li : length indices = length ths) by (apply map_length).
    exists levels, S. split; [|split; [|split; [|split; [|split; [reflexivity|split; [|auto]]]]]].
    - unfold ths. rewrite map_length. symmetry. now apply mapM_length in Ei.
    - apply mapM_length in Es. rewrite combine_length, Li in Es. lia.
    - intros l j Hl Hj. pose proof (mapM_ok_Forall2 _ _ _ Es) as F.
      apply (Forall2_nth _ _ _ (NaN, []) [] l) in F; [|rewrite combine_length; lia].
      rewrite combine_nth in F by auto. cbn [fst snd] in F.
      assert (En : nth l indices [] = map (theta_index nr (oM M) (nth l ths NaN)) (seq 0 nc)).
      { unfold indices. now rewrite (nth_map _ _ _ _ NaN). }
      rewrite En in F.
      pose proof (mapM_ok_Forall2 _ _ _ F) as F2.
      apply (Forall2_nth _ _ _ (0%nat, None) NaN j) in F2; [|rewrite combine_length, map_length, seq_length; lia].
      rewrite combine_nth in F2 by (now rewrite map_length).
      rewrite seq_nth in F2 by auto. rewrite (nth_map _ _ _ _ 0%nat), seq_nth in F2 by (rewrite ?seq_length; auto).
      exact F2.
    - intros l Hl. assert (Hl' : (l < length ths)%nat) by (apply mapM_length in Es; rewrite combine_length in Es; lia).
      pose proof (mapM_ok_Forall2 _ _ _ Es) as F.
      apply (Forall2_nth _ _ _ (NaN, []) [] l) in F; [|rewrite combine_length; lia].
      apply mapM_length in F. rewrite F, combine_nth, combine_length by auto. cbn [snd].
      unfold indices. rewrite (nth_map _ _ _ _ NaN) by auto. rewrite map_length, seq_length. lia.
    - split; [reflexivity|split; [reflexivity|]]. apply map_ext_in. intros [i|] Hi; [|reflexivity].
      unfold indices. apply (nth_map (fun th => map (theta_index nr (oM M) th) (seq 0 nc)) ths i (repeat None nc) NaN).
      destruct (select_min_spec 10 (blank_rare (Fin pct) S)) as (idx & Esel & _ & _ & Hv & _). rewrite Esel in Hi.
      apply in_app_or in Hi as [Hi|Hi]; [|apply repeat_spec in Hi; discriminate].
      apply in_map_iff in Hi as (i' & E & Hi). injection E as ->. apply Hv in Hi as [Hi _].
      rewrite (proj1 (blank_rare_spec S pct)) in Hi.
      apply mapM_length in Es. rewrite combine_length in Es. lia.
  Qed.

  (* C26 *)
  Lemma thetas_mask r pres sal ptmp : thetas_run interp1d d nr nc pct = Ok (r, (pres, sal, ptmp)) ->
    forall i j,
      (kept d i j -> pres i j = oX (d_pres d i j) /\ sal i j = oX (d_sal d i j) /\ ptmp i j = oX (d_ptmp d i j))
      /\ (~ kept d i j -> pres i j = NaN /\ sal i j = NaN /\ ptmp i j = NaN).
  Proof.
    intros E i j. destruct (run_ok _ _ E) as (levels & S & _ & _ & _ & _ & _ & _ & Em). apply pair_pair in Em as (-> & -> & ->).
    unfold P, S0, M, oM, mask. destruct (keptb d i j) eqn:Ek; rewrite <- keptb_spec, Ek; split; intros H; auto; congruence.
  Qed.

  (* C27 *)
  Lemma thetas_narrow : (0 < nr)%nat -> (0 < nc)%nat -> ~ wide_range d nr nc ->
    thetas_run interp1d d nr nc pct = Raise UnboundLocalError.
  Proof.
    intros Hr Hc Hw. rewrite run_unfold. unfold pres_levels.
    destruct (Nat.eqb_spec nr 0); [lia|]. destruct (Nat.eqb_spec nc 0); [lia|]. cbn [orb].
    pose proof (range_check nr nc M) as RC.
    match goal with |- context [if ?c then _ else _] => destruct c end; [|reflexivity].
    exfalso. apply Hw. destruct (proj1 RC eq_refl) as (i & j & i' & j' & x & y & a & b & A1 & A2 & A3 & A4 & Ex & Ey & Hab & Hx & Hy).
    exists i, j, i', j', x, y, a, b. unfold M in Ex, Ey. apply sample_mask in Ex, Ey. repeat (split; [assumption|]). auto.
  Qed.

  (* nearest rows in terms of the samples *)
  Lemma theta_index_sample theta j :
    match theta_index nr (oM M) theta j with
    | Some k => exists th x, theta = Fin th /\ straddles d nr th j /\ nearest_row d nr th j k x
    | None => forall th, theta = Fin th -> ~ straddles d nr th j
    end.
  Proof.
    pose proof (theta_index_spec nr M theta j) as T. destruct (theta_index nr (oM M) theta j) as [k|].
    - destruct T as (th & x & -> & Hk & Ek & (a & b & y & z & Ha & Hb & Ey & Ez & Hyz) & Hn). exists th, x. split; auto. split.
      + exists a, b, y, z. unfold M in *. rewrite !sample_mask. auto.
      + split; auto. split; [now apply sample_mask|]. intros k' x' Hk' Hs. apply Hn; auto. now apply sample_mask.
    - intros th -> (a & b & y & z & Ha & Hb & Ey & Ez & Hyz). apply (T th eq_refl). exists a, b, y, z.
      unfold M. apply sample_mask in Ey, Ez. auto.
  Qed.

  Lemma wide_of_ok r mats : thetas_run interp1d d nr nc pct = Ok (r, mats) -> wide_range d nr nc.
  Proof.
    intros E. rewrite run_unfold in E. apply bind_ok in E as (levels & El & _). unfold pres_levels in El.
    destruct (Nat.eqb nr 0 || Nat.eqb nc 0); [discriminate|]. pose proof (range_check nr nc M) as RC.
    match type of El with context [if ?c then _ else _] => destruct c end; [|discriminate].
    destruct (proj1 RC eq_refl) as (i & j & i' & j' & x & y & a & b & A1 & A2 & A3 & A4 & Ex & Ey & Hab & Hx & Hy).
    exists i, j, i', j', x, y, a, b. unfold M in Ex, Ey. apply sample_mask in Ex, Ey. repeat (split; [assumption|]). auto.
  Qed.

  (* C25 *)
  Lemma thetas_index r mats : thetas_run interp1d d nr nc pct = Ok (r, mats) ->
    length (t_levels r) = 10%nat /\ length (th_index r) = 10%nat /\
    forall i j, (i < 10)%nat -> (j < nc)%nat ->
      let theta := nth i (t_levels r) NaN in
      match nth j (nth i (th_index r) []) None with
      | Some k => exists th x, theta = Fin th /\ straddles d nr th j /\ nearest_row d nr th j k x
      | None => forall th, theta = Fin th -> ~ straddles d nr th j
      end.
  Proof.
    intros E. destruct (run_ok _ _ E) as (levels & S & _ & _ & _ & _ & _ & (Et & _ & Ex) & _).
    assert (Ls : length (select_min 10 (var_sal_theta r)) = 10%nat).
    { generalize (var_sal_theta r). generalize 10%nat. clear. intros k. induction k as [|k IH]; intros v; cbn [select_min]; auto.
      destruct (forallb nisnan v); [cbn; now rewrite IH|]. destruct (argwhere _ v); cbn; now rewrite IH. }
    rewrite Et, Ex, !map_length. split; auto. split; auto. intros i j Hi Hj.
    rewrite (nth_map _ _ _ NaN None) by lia. rewrite (nth_map _ _ _ [] None) by lia.
    destruct (nth i (select_min 10 (var_sal_theta r)) None) as [l|].
    - rewrite (nth_map _ _ _ None 0%nat) by (now rewrite seq_length). rewrite seq_nth by auto. apply theta_index_sample.
    - assert (En : nth j (repeat (@None nat) nc) None = None).
      { destruct (nth_in_or_default j (repeat (@None nat) nc) None) as [Hin|Hd]; auto. now apply repeat_spec in Hin. }
      rewrite En. discriminate.
  Qed.

  (* C24 *)
  Lemma thetas_select r mats : thetas_run interp1d d nr nc pct = Ok (r, mats) ->
    exists idx, let var := var_sal_theta r in
      length idx = Nat.min 10 (length (present var))
      /\ t_levels r = (map (fun i => nth i (theta_levels r) NaN) idx ++ repeat NaN (10 - length idx))%list
      /\ length var = length (theta_levels r)
      /\ NoDup idx
      /\ (forall i, In i idx -> (i < length var)%nat /\ nisnan (nth i var NaN) = false)
      /\ (forall a b, (a < b < length idx)%nat -> nleb (nth (nth a idx 0%nat) var NaN) (nth (nth b idx 0%nat) var NaN) = true)
      /\ (forall i j, In i idx -> (j < length var)%nat -> ~ In j idx -> nisnan (nth j var NaN) = false ->
            nleb (nth i var NaN) (nth j var NaN) = true).
  Proof.
    intros E. destruct (run_ok _ _ E) as (levels & S & _ & LS & _ & _ & Ev & (Et & _ & _) & _).
    destruct (select_min_spec 10 (var_sal_theta r)) as (idx & Es & Ll & Nd & Hv & So & Op).
    exists idx. cbv zeta. split; [exact Ll|]. split; [|split; [|split; [|split; [|split]]]]; auto.
    - rewrite Et, Es, map_app, map_map. f_equal. clear. induction (10 - length idx)%nat as [|n IH]; cbn; auto. f_equal. exact IH.
    - rewrite Ev, (proj1 (blank_rare_spec S pct)). auto.
  Qed.

  (* C72, C73 *)
  Lemma farM_far th j k x k' x' : farM M nr th j k x k' x' <-> far_side d nr th j k x k' x'.
  Proof. unfold farM, far_side, M. now rewrite sample_mask. Qed.

  Lemma far_between th j k x k' x' : nearest_row d nr th j k x -> far_side d nr th j k x k' x' ->
    x < th < x' \/ x' < th < x.
  Proof.
    intros (_ & _ & Hn) (Hk & _ & Hs & Hf). destruct (Hn k' x' Hk Hs) as [A _].
    unfold Rabs in A. destruct (Rcase_abs (x - th)) in A; destruct (Rcase_abs (x' - th)) in A; lra.
  Qed.

  Lemma entry_spec theta j v : linear2 interp1d ->
    sal_entry theta (j, theta_index nr (oM M) theta j) = Ok v -> level_salinity d nr theta j v.
  Proof.
    intros Hlin. unfold sal_entry. cbn [fst snd]. pose proof (theta_index_sample theta j) as T.
    destruct (theta_index nr (oM M) theta j) as [k|].
    2:{ intros E. injection E as <-. now apply ls_none. }
    destruct T as (th & x & -> & Hst & Hn). pose proof Hn as (Hk & Hsx & _).
    assert (Ek : M k j = Some x) by (now apply sample_mask).
    assert (Hs0 : forall q y, sample d q j y -> S0 q j = d_sal d q j).
    { intros q y [Hkp _]. unfold S0, mask. apply keptb_spec in Hkp. now rewrite Hkp. }
    destruct (sal_at_cases interp1d nr M S0 th j k x Hk Ek) as [[Hno ->]|[(k' & y & Hf & Hmin & ->)|[_ ->]]].
    - intros E. injection E as <-. rewrite (Hs0 k x) by auto. apply (ls_nearest d nr (Fin th) j th k x); auto.
      left. intros k' x' Hf. apply (Hno k' x'). now apply farM_far.
    - apply farM_far in Hf. pose proof (far_between _ _ _ _ _ _ Hn Hf) as Hb. pose proof Hf as (_ & _ & Hsy & _).
      assert (Hp : partner d nr th j k x k' y).
      { split; auto. intros k'' x'' Hf'' Hne. apply (Hmin k''); auto. now apply farM_far. }
      rewrite (Hs0 k x), (Hs0 k' y) by auto.
      destruct (d_sal d k j) as [a|] eqn:Ea.
      + destruct (d_sal d k' j) as [b|] eqn:Eb.
        * rewrite Hlin; [|lra|unfold Rmin, Rmax; destruct (Rle_dec x y); lra].
          intros E. injection E as <-. eapply ls_between; eauto.
        * intros E. injection E as <-. cbn [oX]. change (Fin a) with (oX (Some a)). rewrite <- Ea.
          apply (ls_nearest d nr (Fin th) j th k x); auto. right. right. eauto.
      + intros E. injection E as <-. change NaN with (oX None). cbn [oX]. change NaN with (oX None). rewrite <- Ea.
        apply (ls_nearest d nr (Fin th) j th k x); auto.
    - discriminate.
  Qed.

  Lemma thetas_variance r mats : linear2 interp1d -> thetas_run interp1d d nr nc pct = Ok (r, mats) ->
    exists S, length S = length (theta_levels r)
      /\ (forall l, (l < length S)%nat -> length (nth l S []) = nc)
      /\ (forall l j, (l < length S)%nat -> (j < nc)%nat ->
            level_salinity d nr (nth l (theta_levels r) NaN) j (nth j (nth l S []) NaN))
      /\ length (var_sal_theta r) = length S
      /\ forall l, (l < length S)%nat -> let v := nth l (var_sal_theta r) NaN in
           ((rare S pct l \/ (l = 0%nat /\ exists l', rare S pct l')) -> v = NaN)
           /\ (~ rare S pct l -> ~ (l = 0%nat /\ exists l', rare S pct l') ->
                ((length (present (nth l S [])) <= 1)%nat -> v = NaN)
                /\ forall vs, present (nth l S []) = map Fin vs -> (2 <= length vs)%nat -> v = Fin (sample_var vs)).
  Proof.
    intros Hlin E. destruct (run_ok _ _ E) as (levels & S & _ & LS & He & Hl & Ev & _ & _).
    exists S. split; auto. split; auto. split.
    { intros l j Hll Hj. apply entry_spec; auto. apply He; auto. lia. }
    rewrite Ev. split; [apply blank_rare_spec|]. intros l Hll. now apply blank_rare_spec.
  Qed.

  (* two neighbours at the same temperature on the far side: no value is returned *)
  Lemma thetas_tie r mats l j th k x k1 k2 y : thetas_run interp1d d nr nc pct = Ok (r, mats) ->
    (l < length (theta_levels r))%nat -> (j < nc)%nat -> nth l (theta_levels r) NaN = Fin th ->
    straddles d nr th j -> nearest_row d nr th j k x ->
    far_side d nr th j k x k1 y -> far_side d nr th j k x k2 y -> k1 = k2.
  Proof.
    intros E Hl Hj Eth Hst Hn F1 F2. destruct (run_ok _ _ E) as (levels & S & _ & LS & He & _).
    specialize (He l j Hl Hj). rewrite Eth in He. unfold sal_entry in He. cbn [fst snd] in He.
    pose proof (theta_index_sample (Fin th) j) as T. destruct (theta_index nr (oM M) (Fin th) j) as [k0|].
    2:{ exfalso. exact (T th eq_refl Hst). }
    destruct T as (th0 & x0 & Eth0 & _ & Hn0). injection Eth0 as <-.
    assert (k0 = k).
    { destruct Hn as (Hk & Hx & Hm). destruct Hn0 as (Hk0 & Hx0 & Hm0).
      destruct (Nat.lt_trichotomy k0 k) as [L|[L|L]]; auto.
      - destruct (Hm k0 x0 Hk0 Hx0) as [_ A]. destruct (Hm0 k x Hk Hx) as [B _]. specialize (A L). lra.
      - destruct (Hm0 k x Hk Hx) as [_ A]. destruct (Hm k0 x0 Hk0 Hx0) as [B _]. specialize (A L). lra. }
    subst k0. assert (x0 = x).
    { destruct Hn as (_ & Hx & _). destruct Hn0 as (_ & Hx0 & _). apply sample_mask in Hx, Hx0. congruence. }
    subst x0. destruct Hn as (Hk & Hx & _). apply sample_mask in Hx.
    destruct (Nat.eq_dec k1 k2) as [|Hne]; auto. exfalso.
    destruct (sal_at_cases interp1d nr M S0 th j k x Hk Hx) as [[Hno _]|[(k' & y' & Hf & Hmin & _)|[_ Er]]].
    - apply (Hno k1 y). now apply farM_far.
    - apply farM_far in F1, F2.
      destruct (Nat.eq_dec k1 k') as [->|N1].
      + assert (y' = y) by (destruct F1 as (_ & _ & A & _), Hf as (_ & _ & B & _); congruence). subst y'.
        specialize (Hmin k2 y F2 ltac:(congruence)). lra.
      + destruct (Nat.eq_dec k2 k') as [->|N2].
        * assert (y' = y) by (destruct F2 as (_ & _ & A & _), Hf as (_ & _ & B & _); congruence). subst y'.
          specialize (Hmin k1 y F1 N1). lra.
        * destruct F1 as (_ & A1 & _), F2 as (_ & A2 & _), Hf as (_ & A3 & _). lia.
    - rewrite Er in He. discriminate.
  Qed.
End Assemble.
