(* Proofs for pyowc/utilities.py *)
From Coq Require Import ZArith List Bool Reals Lra Lia Permutation Sorted Ascii.
From Verif Require Import Num Np NumFacts NpFacts Utilities Spec_Utilities.
Import ListNotations.

(* ------------------------------------------------------------------ *)
(* spatial_correlation *)
Section SpatialCorrelation.
Local Open Scope R_scope.

Definition sepR (lo1 lo2 el la1 la2 ea d1 d2 eg : R) : R :=
  (lo1 - lo2) * (lo1 - lo2) / (el * el) + (la1 - la2) * (la1 - la2) / (ea * ea)
  + (d1 - d2) * (d1 - d2) / (eg * eg).
Definition pvR (phi p1 p2 : R) : R :=
  ((p2 - p1) / sqrt (p2 * p2 + p1 * p1) / phi) * ((p2 - p1) / sqrt (p2 * p2 + p1 * p1) / phi).

Lemma sq_pos a : a <> 0 -> 0 < a * a.
Proof. intros. nra. Qed.

Lemma term_nonneg a b : b <> 0 -> 0 <= a * a / (b * b).
Proof. intros. apply Rmult_le_pos; [nra|]. left. apply Rinv_0_lt_compat. now apply sq_pos. Qed.

Lemma term_zero a b : b <> 0 -> (a * a / (b * b) = 0 <-> a = 0).
Proof.
  intros Hb. split; [|intros ->; unfold Rdiv; ring].
  intros E. assert (a * a = 0).
  { apply (Rmult_eq_reg_r (/ (b * b))); [unfold Rdiv in E; lra|]. apply Rinv_neq_0_compat.
    apply Rgt_not_eq. now apply sq_pos. }
  nra.
Qed.

Lemma sum3_zero a b c : 0 <= a -> 0 <= b -> 0 <= c -> (a + b + c = 0 <-> a = 0 /\ b = 0 /\ c = 0).
Proof. intros. split; [intros; repeat split; lra|lra]. Qed.

Lemma spatial_correlation_eval lo1 lo2 el la1 la2 ea d1 d2 eg phi p1 p2 :
  el <> 0 -> ea <> 0 -> eg <> 0 -> (p1 <> 0 -> p2 <> 0 -> phi <> 0) ->
  spatial_correlation (Fin lo1) (Fin lo2) (Fin el) (Fin la1) (Fin la2) (Fin ea)
                      (Fin d1) (Fin d2) (Fin eg) (Fin phi) (Fin p1) (Fin p2)
  = Ok (Fin (sepR lo1 lo2 el la1 la2 ea d1 d2 eg +
             if Req_EM_T p1 0 then 0 else if Req_EM_T p2 0 then 0 else pvR phi p1 p2)).
Proof.
  intros He Ha Hg Hphi. unfold spatial_correlation, nsq.
  change (nmul (nsub (Fin lo1) (Fin lo2)) (nsub (Fin lo1) (Fin lo2))) with (Fin ((lo1-lo2)*(lo1-lo2))).
  change (nmul (nsub (Fin la1) (Fin la2)) (nsub (Fin la1) (Fin la2))) with (Fin ((la1-la2)*(la1-la2))).
  change (nmul (nsub (Fin d1) (Fin d2)) (nsub (Fin d1) (Fin d2))) with (Fin ((d1-d2)*(d1-d2))).
  change (nmul (Fin el) (Fin el)) with (Fin (el*el)).
  change (nmul (Fin ea) (Fin ea)) with (Fin (ea*ea)).
  change (nmul (Fin eg) (Fin eg)) with (Fin (eg*eg)).
  rewrite !pydiv_fin by (apply Rgt_not_eq, sq_pos; auto).
  cbn [bind neqb nofZ XR_Num xeqb]. unfold Reqb.
  destruct (Req_EM_T p1 0) as [->|n1]; [cbn; unfold sepR; f_equal; f_equal; ring|].
  destruct (Req_EM_T p2 0) as [->|n2]; [cbn; unfold sepR; f_equal; f_equal; ring|].
  cbn [negb andb].
  change (nadd (nmul (Fin p2) (Fin p2)) (nmul (Fin p1) (Fin p1))) with (Fin (p2*p2+p1*p1)).
  assert (0 < p2*p2+p1*p1) by nra.
  rewrite xsqrt_fin by lra. change (nsub (Fin p2) (Fin p1)) with (Fin (p2-p1)).
  rewrite pydiv_fin. 2:{ apply Rgt_not_eq, sqrt_lt_R0; auto. }
  cbn [bind]. rewrite pydiv_fin by auto. cbn. unfold sepR, pvR. reflexivity.
Qed.

Lemma spatial_correlation_props lo1 lo2 el la1 la2 ea d1 d2 eg phi p1 p2 :
  el <> 0 -> ea <> 0 -> eg <> 0 -> phi <> 0 ->
  exists v,
    spatial_correlation (Fin lo1) (Fin lo2) (Fin el) (Fin la1) (Fin la2) (Fin ea)
                        (Fin d1) (Fin d2) (Fin eg) (Fin phi) (Fin p1) (Fin p2) = Ok (Fin v)
    /\ spatial_correlation (Fin lo2) (Fin lo1) (Fin el) (Fin la2) (Fin la1) (Fin ea)
                           (Fin d2) (Fin d1) (Fin eg) (Fin phi) (Fin p2) (Fin p1) = Ok (Fin v)
    /\ 0 <= v
    /\ (p1 = 0 \/ p2 = 0 -> (v = 0 <-> lo1 = lo2 /\ la1 = la2 /\ d1 = d2))
    /\ (p1 <> 0 -> p2 <> 0 -> (v = 0 <-> lo1 = lo2 /\ la1 = la2 /\ d1 = d2 /\ p1 = p2)).
Proof.
  intros He Ha Hg Hphi.
  rewrite !spatial_correlation_eval by auto. eexists. split; [reflexivity|].
  assert (Hs : 0 <= sepR lo1 lo2 el la1 la2 ea d1 d2 eg).
  { unfold sepR. pose proof (term_nonneg (lo1-lo2) el He). pose proof (term_nonneg (la1-la2) ea Ha).
    pose proof (term_nonneg (d1-d2) eg Hg). lra. }
  assert (Hz : sepR lo1 lo2 el la1 la2 ea d1 d2 eg = 0 <-> lo1 = lo2 /\ la1 = la2 /\ d1 = d2).
  { unfold sepR. rewrite sum3_zero by now apply term_nonneg.
    rewrite !term_zero by auto. split; intros (?&?&?); repeat split; lra. }
  assert (Hsym : sepR lo2 lo1 el la2 la1 ea d2 d1 eg = sepR lo1 lo2 el la1 la2 ea d1 d2 eg).
  { unfold sepR, Rdiv. ring. }
  assert (Hp : 0 <= pvR phi p1 p2) by (unfold pvR; apply Rle_0_sqr).
  assert (Hpsym : pvR phi p2 p1 = pvR phi p1 p2).
  { unfold pvR. rewrite (Rplus_comm (p1*p1)). unfold Rdiv. ring. }
  rewrite Hsym, Hpsym.
  destruct (Req_EM_T p1 0) as [->|n1], (Req_EM_T p2 0) as [->|n2];
    (split; [try reflexivity|split; [lra|split; intros H1; [|try contradiction; intros H2; try contradiction]]]);
    rewrite ?Rplus_0_r; auto.
  - exfalso; destruct H1; contradiction.
  - assert (Hpz : pvR phi p1 p2 = 0 <-> p1 = p2).
    { unfold pvR. split; [|intros ->; unfold Rdiv; ring].
      intros E. assert (E2 : (p2 - p1) / sqrt (p2*p2+p1*p1) / phi = 0) by nra.
      assert (0 < p2*p2+p1*p1) by nra.
      assert (0 < sqrt (p2*p2+p1*p1)) by now apply sqrt_lt_R0.
      assert (p2 - p1 = 0).
      { apply (Rmult_eq_reg_r (/ sqrt (p2*p2+p1*p1) * / phi)).
        - unfold Rdiv in E2. lra.
        - apply Rmult_integral_contrapositive_currified; apply Rinv_neq_0_compat; lra. }
      lra. }
    split.
    + intros E. assert (sepR lo1 lo2 el la1 la2 ea d1 d2 eg = 0) by lra.
      assert (pvR phi p1 p2 = 0) by lra. apply Hz in H. apply Hpz in H0. tauto.
    + intros (A&B&C&D). rewrite (proj2 Hz) by tauto. rewrite (proj2 Hpz) by tauto. lra.
Qed.

Lemma spatial_correlation_zero_scale lo1 lo2 el la1 la2 ea d1 d2 eg phi p1 p2 :
  el = 0 \/ ea = 0 \/ eg = 0 ->
  spatial_correlation (Fin lo1) (Fin lo2) (Fin el) (Fin la1) (Fin la2) (Fin ea)
                      (Fin d1) (Fin d2) (Fin eg) (Fin phi) (Fin p1) (Fin p2)
  = Raise ZeroDivisionError.
Proof.
  intros Hz. unfold spatial_correlation, nsq.
  change (nmul (nsub (Fin lo1) (Fin lo2)) (nsub (Fin lo1) (Fin lo2))) with (Fin ((lo1-lo2)*(lo1-lo2))).
  change (nmul (nsub (Fin la1) (Fin la2)) (nsub (Fin la1) (Fin la2))) with (Fin ((la1-la2)*(la1-la2))).
  change (nmul (nsub (Fin d1) (Fin d2)) (nsub (Fin d1) (Fin d2))) with (Fin ((d1-d2)*(d1-d2))).
  change (nmul (Fin el) (Fin el)) with (Fin (el*el)).
  change (nmul (Fin ea) (Fin ea)) with (Fin (ea*ea)).
  change (nmul (Fin eg) (Fin eg)) with (Fin (eg*eg)).
  assert (Hp : forall a b, pydiv (Fin a) (Fin b) = Raise ZeroDivisionError \/
                           exists c, pydiv (Fin a) (Fin b) = Ok (Fin c)).
  { intros a b. destruct (Req_EM_T b 0); [left; now apply pydiv_zero|right; eexists; now apply pydiv_fin]. }
  destruct (Hp ((lo1-lo2)*(lo1-lo2)) (el*el)) as [E|[c E]]; rewrite E; [reflexivity|].
  destruct (Hp ((la1-la2)*(la1-la2)) (ea*ea)) as [E'|[c' E']]; rewrite E'; [reflexivity|].
  destruct (Hp ((d1-d2)*(d1-d2)) (eg*eg)) as [E''|[c'' E'']]; rewrite E''; [reflexivity|].
  destruct Hz as [->|[->| ->]].
  - rewrite pydiv_zero in E by ring. discriminate.
  - rewrite pydiv_zero in E' by ring. discriminate.
  - rewrite pydiv_zero in E'' by ring. discriminate.
Qed.
End SpatialCorrelation.

(* ------------------------------------------------------------------ *)
(* sorter *)
Section Sorter.
  Context {T : Type} `{NumOrd T}.

  (* boundaries preceding each site in a tagged list; tag true = site *)
  Fixpoint preds (c : nat) (l : list (T * bool)) : list (T * nat) :=
    match l with
    | [] => []
    | (k, true) :: r => (k, c) :: preds c r
    | (k, false) :: r => preds (S c) r
    end.

  Definition tlt (p q : T * bool) : bool := slt (fst p) (fst q).

  Lemma preds_shift c l : preds (S c) l = map (fun p => (fst p, S (snd p))) (preds c l).
  Proof.
    revert c; induction l as [|[k []] l IH]; simpl; intros c; auto. now rewrite IH.
  Qed.

  Lemma preds_insert b l c : sorted_by tlt l ->
    preds c (insert_by tlt (b, false) l) =
    map (fun p => (fst p, if slt (fst p) b then snd p else S (snd p))) (preds c l).
  Proof.
    intros Hs. revert c. induction l as [|y l IH]; intros c; [reflexivity|].
    inversion Hs; subst. cbn [insert_by]. destruct (tlt y (b, false)) eqn:E.
    - destruct y as [k []]; cbn [preds map fst snd]; rewrite ?IH; auto.
      unfold tlt in E; simpl in E. now rewrite E.
    - change (preds c ((b, false) :: y :: l)) with (preds (S c) (y :: l)). rewrite preds_shift.
      apply map_ext_in. intros p Hp.
      assert (Hin : In (fst p, true) (y :: l)).
      { clear -Hp. revert c Hp. induction (y :: l) as [|[k []] r IH]; simpl; intros c; auto.
        - intros [<-|Hp]; eauto.
        - intros Hp; eauto. }
      assert (slt (fst p) b = false) as ->.
      { destruct Hin as [->|Hi]; [exact E|].
        eapply slt_negtrans; [exact E|]. rewrite Forall_forall in H4. apply (H4 _ Hi). }
      destruct p; reflexivity.
  Qed.

  Definition count_sle (s : T) (bs : list T) : nat := length (filter (fun b => negb (slt s b)) bs).

  Lemma preds_sites c l : preds c (map (fun k => (k, true)) l) = map (fun k => (k, c)) l.
  Proof. induction l; simpl; auto. now rewrite IHl. Qed.

  Lemma tlt_asym a b : tlt a b = true -> tlt b a = false.
  Proof. apply slt_asym. Qed.
  Lemma tlt_neg a b c : tlt b a = false -> tlt c b = false -> tlt c a = false.
  Proof. apply slt_negtrans. Qed.

  Lemma preds_sort bs ss :
    preds 0 (sort_by tlt (map (fun k => (k, false)) bs ++ map (fun k => (k, true)) ss)) =
    map (fun s => (s, count_sle s bs)) (np_sort ss).
  Proof.
    induction bs as [|b bs IH].
    - simpl. rewrite <- (sort_by_map slt tlt (fun k => (k, true))) by auto.
      rewrite preds_sites. reflexivity.
    - cbn [map app]. unfold sort_by; cbn [fold_right]; fold (sort_by tlt).
      fold (sort_by tlt (map (fun k => (k, false)) bs ++ map (fun k => (k, true)) ss)).
      rewrite preds_insert.
      + rewrite IH, map_map. apply map_ext. intros s. cbn [fst snd]. f_equal.
        unfold count_sle. cbn [filter]. destruct (slt s b); simpl; auto.
      + apply sort_by_sorted; [apply tlt_asym|apply tlt_neg].
  Qed.

  (* positions of sites in the index list, relative to the running site number *)
  Lemma positions_preds (nb : nat) (l : list (T * nat)) c q :
    map (fun pk => (Z.of_nat (fst pk) - Z.of_nat (snd pk))%Z)
        (combine (argwhere_from (c + q) (fun i => Z.ltb (Z.of_nat nb - 1) (Z.of_nat i)) (map snd l))
                 (seq (S q) (length (filter (fun p => Z.ltb (Z.of_nat nb - 1) (Z.of_nat (snd p))) l)))) =
    map (fun p => (Z.of_nat (snd p) - 1)%Z)
        (preds c (map (fun p => (fst p, Z.ltb (Z.of_nat nb - 1) (Z.of_nat (snd p)))) l)).
  Proof.
    revert c q. induction l as [|[k i] l IH]; intros c q; [reflexivity|].
    cbn [map argwhere_from filter snd fst preds].
    destruct (Z.ltb (Z.of_nat nb - 1) (Z.of_nat i)) eqn:E.
    - cbn [length seq combine map fst snd]. f_equal; [lia|].
      specialize (IH c (S q)). replace (c + S q) with (S (c + q)) in IH by lia. exact IH.
    - specialize (IH (S c) q). simpl in IH. exact IH.
  Qed.

  Lemma combine_app {A B} (a1 a2 : list A) (b1 b2 : list B) :
    length a1 = length b1 -> combine (a1 ++ a2) (b1 ++ b2) = combine a1 b1 ++ combine a2 b2.
  Proof. revert b1; induction a1; destruct b1; simpl; intros; try discriminate; auto. f_equal; auto. Qed.

  Lemma tag_combine (l : list T) nb k :
    map (fun p => (fst p, Z.ltb (Z.of_nat nb - 1) (Z.of_nat (snd p)))) (combine l (seq k (length l))) =
    map (fun p => (fst p, Z.ltb (Z.of_nat nb - 1) (Z.of_nat (snd p)))) (combine l (seq k (length l))).
  Proof. reflexivity. Qed.

  Lemma tag_const (b : bool) (nb : nat) (l : list T) k :
    (forall i, k <= i < k + length l -> Z.ltb (Z.of_nat nb - 1) (Z.of_nat i) = b) ->
    map (fun p => (fst p, Z.ltb (Z.of_nat nb - 1) (Z.of_nat (snd p)))) (combine l (seq k (length l)))
    = map (fun x => (x, b)) l.
  Proof.
    revert k; induction l as [|x l IH]; intros k Hk; [reflexivity|].
    cbn [length seq combine map fst snd]. rewrite Hk by (simpl; lia). f_equal.
    apply IH. intros i Hi. apply Hk. simpl. lia.
  Qed.

  Lemma filter_map_length {A B} (f : A -> B) p l :
    length (filter (fun x => p (f x)) l) = length (filter p (map f l)).
  Proof. induction l; simpl; auto. destruct (p (f a)); simpl; auto. Qed.

  Lemma filter_perm_length {A} (p : A -> bool) a b :
    Permutation a b -> length (filter p a) = length (filter p b).
  Proof.
    induction 1; simpl; auto.
    - destruct (p x); simpl; auto.
    - destruct (p x), (p y); simpl; auto.
    - congruence.
  Qed.

  Lemma sorter_spec (bs ss : list T) :
    sorter bs ss = map (fun s => (Z.of_nat (count_sle s bs) - 1)%Z) (np_sort ss).
  Proof.
    unfold sorter, argsort.
    set (nb := length bs).
    set (L := combine (bs ++ ss) (seq 0 (length (bs ++ ss)))).
    set (S0 := sort_by (fun p q => slt (fst p) (fst q)) L).
    set (tg := fun p : T * nat => (fst p, Z.ltb (Z.of_nat nb - 1) (Z.of_nat (snd p)))).
    assert (Htag : map tg L = map (fun k => (k, false)) bs ++ map (fun k => (k, true)) ss).
    { unfold L. rewrite app_length, seq_app, combine_app by (now rewrite seq_length).
      rewrite map_app. unfold tg. f_equal.
      - apply tag_const. intros i Hi. apply Z.ltb_ge. unfold nb. lia.
      - apply tag_const. intros i Hi. apply Z.ltb_lt. unfold nb. lia. }
    assert (Hcnt : length ss = length (filter (fun p => Z.ltb (Z.of_nat nb - 1) (Z.of_nat (snd p))) S0)).
    { unfold S0. rewrite (filter_perm_length _ _ _ (sort_by_perm _ L)).
      change (fun p : T * nat => Z.ltb (Z.of_nat nb - 1) (Z.of_nat (snd p)))
        with (fun p : T * nat => snd (tg p)).
      rewrite (filter_map_length tg (fun p => snd p)), Htag, filter_app, app_length.
      assert (F : forall b (l : list T), length (filter (fun p => snd p) (map (fun k => (k, b)) l))
                        = if b then length l else 0).
      { intros b l. induction l; simpl; [now destruct b|]. destruct b; simpl; auto. }
      now rewrite !F. }
    rewrite Hcnt. unfold argwhere.
    pose proof (positions_preds nb S0 0 0) as P. simpl (0 + 0) in P. rewrite P.
    change (map (fun p => (fst p, Z.ltb (Z.of_nat nb - 1) (Z.of_nat (snd p)))) S0) with (map tg S0).
    unfold S0. rewrite (sort_by_map _ tlt tg) by auto. rewrite Htag, preds_sort, map_map.
    reflexivity.
  Qed.
End Sorter.

Lemma count_sle_R s bs : count_sle (Fin s) (map Fin bs) = count_le s bs.
Proof.
  unfold count_sle. induction bs as [|b bs IH]; [reflexivity|].
  cbn [map filter count_le]. unfold slt at 1. cbn [nltb nisnan XR_Num xltb]. simpl andb. rewrite orb_false_r.
  destruct (Rle_dec b s) as [h|h].
  - assert (Rltb s b = false) as -> by (rb; lra). simpl. now rewrite IH.
  - assert (Rltb s b = true) as -> by (rb; lra). simpl. now rewrite IH.
Qed.

Lemma np_sort_R (l : list R) :
  exists l', np_sort (map Fin l) = map Fin l' /\ Permutation l' l /\ StronglySorted Rle l'.
Proof.
  exists (sort_by Rltb l). split; [|split].
  - unfold np_sort. symmetry. apply sort_by_map. intros a b.
    unfold slt. cbn. now rewrite orb_false_r.
  - apply sort_by_perm.
  - assert (Hs : sorted_by Rltb (sort_by Rltb l)).
    { apply sort_by_sorted; intros; rb; lra. }
    revert Hs. generalize (sort_by Rltb l). induction 1; constructor; auto.
    eapply Forall_impl; [|eauto]. simpl. intros; rb; lra.
Qed.

Lemma ascending_sorted l : ascending l <-> StronglySorted Rle l.
Proof.
  split.
  - induction l as [|x l IH]; intros Ha; constructor.
    + apply IH. intros i j Hij. apply (Ha (S i) (S j)). simpl; lia.
    + apply Forall_forall. intros y Hy. apply (In_nth _ _ 0%R) in Hy as (n & Hn & <-).
      apply (Ha 0 (S n)). simpl; lia.
  - induction 1 as [|x l Hs IH Hf]; intros i j Hij; simpl in Hij; [lia|].
    rewrite Forall_forall in Hf. destruct i, j; simpl; try lia; try lra.
    + apply Hf. apply nth_In. lia.
    + apply IH. lia.
Qed.

Lemma sorted_perm_eq (a b : list R) :
  StronglySorted Rle a -> StronglySorted Rle b -> Permutation a b -> a = b.
Proof.
  intros Ha. revert b. induction Ha as [|x a Ha IH Hx]; intros b Hb Hp.
  - apply Permutation_nil in Hp. auto.
  - destruct Hb as [|y b Hb Hy]; [symmetry in Hp; now apply Permutation_nil in Hp|].
    assert (x = y).
    { rewrite Forall_forall in Hx, Hy.
      assert (In x (y :: b)) by (eapply Permutation_in; eauto; left; auto).
      assert (In y (x :: a)) by (eapply Permutation_in; [symmetry; eauto|]; left; auto).
      destruct H as [->|H]; auto. destruct H0 as [->|H0]; auto.
      apply Hx in H0. apply Hy in H. lra. }
    subst y. f_equal. apply IH; auto. eapply Permutation_cons_inv; eauto.
Qed.

Lemma sorter_R bs ss : exists ss',
  Permutation ss' ss /\ ascending ss' /\
  sorter (map Fin bs) (map Fin ss) = map (fun s => (Z.of_nat (count_le s bs) - 1)%Z) ss'.
Proof.
  destruct (np_sort_R ss) as (ss' & E & Hp & Hs). exists ss'. split; [|split]; auto.
  - now apply ascending_sorted.
  - rewrite sorter_spec, E, map_map. apply map_ext. intros s. now rewrite count_sle_R.
Qed.

Lemma sorter_ascending bs ss : ascending ss ->
  sorter (map Fin bs) (map Fin ss) = map (fun s => (Z.of_nat (count_le s bs) - 1)%Z) ss.
Proof.
  intros Ha. destruct (sorter_R bs ss) as (ss' & Hp & Hs & E). rewrite E. f_equal.
  apply sorted_perm_eq; auto; now apply ascending_sorted.
Qed.

Lemma count_le_mono s s' bs : (s <= s')%R -> count_le s bs <= count_le s' bs.
Proof. intros Hs. induction bs as [|b bs IH]; simpl; auto. repeat destruct Rle_dec; try lra; lia. Qed.

Lemma count_le_bound s bs : count_le s bs <= length bs.
Proof. induction bs as [|b bs IH]; simpl; auto. destruct Rle_dec; lia. Qed.

Lemma sorter_general bs ss : let r := sorter (map Fin bs) (map Fin ss) in
  length r = length ss
  /\ (forall i j, i <= j < length r -> (nth i r 0 <= nth j r 0)%Z)
  /\ (forall z, In z r -> (-1 <= z <= Z.of_nat (length bs) - 1)%Z)
  /\ (forall ss', Permutation ss ss' -> sorter (map Fin bs) (map Fin ss') = r).
Proof.
  intros r. destruct (sorter_R bs ss) as (s1 & Hp & Hs & E). unfold r. rewrite E.
  split; [|split; [|split]].
  - rewrite map_length. now apply Permutation_length.
  - intros i j Hij. rewrite map_length in Hij.
    rewrite (nth_indep _ _ (Z.of_nat (count_le 0 bs) - 1)%Z) by (rewrite map_length; lia).
    rewrite (nth_indep _ 0%Z (Z.of_nat (count_le 0 bs) - 1)%Z) by (rewrite map_length; lia).
    rewrite !(map_nth (fun s => (Z.of_nat (count_le s bs) - 1)%Z)).
    pose proof (count_le_mono _ _ bs (Hs i j Hij)). lia.
  - intros z Hz. apply in_map_iff in Hz as (s & <- & _). pose proof (count_le_bound s bs). lia.
  - intros ss' Hp'. destruct (sorter_R bs ss') as (s2 & Hp2 & Hs2 & E2). rewrite E2. f_equal.
    apply sorted_perm_eq; try now apply ascending_sorted.
    rewrite Hp2, <- Hp'. now symmetry.
Qed.
