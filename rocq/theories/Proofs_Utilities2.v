(* Proofs for pyowc/utilities.py: wrap_longitude, potential_vorticity, cal2dec *)
From Coq Require Import ZArith List Bool Reals Lra Lia.
From Verif Require Import Num Np NumFacts NpFacts Utilities Spec_Utilities.
Import ListNotations.

(* ------------------------------------------------------------------ *)
Section Wrap.
Local Open Scope R_scope.

Definition norm1 (x : R) : R := if Rltb x 0 then x + 360 else x.
Definition seam (l : list R) : bool := existsb (fun x => Rleb 320 x) (map norm1 l).
Definition wrapR (l : list R) : list R :=
  if seam l then map (fun x => if Rleb (norm1 x) 40 then 360 + norm1 x else norm1 x) l else map norm1 l.

Lemma wrap_R l : wrap_longitude (map Fin l) = map Fin (wrapR l).
Proof.
  unfold wrap_longitude. rewrite map_map.
  assert (E1 : map (fun x : R => if nltb (Fin x) (nofZ 0) then nadd (Fin x) (nofZ 360) else Fin x) l
               = map Fin (map norm1 l)).
  { rewrite map_map. apply map_ext. intros x. cbn. unfold norm1. destruct (Rltb x 0); auto. }
  rewrite E1. unfold wrapR, seam.
  assert (E2 : existsb (fun x => nleb (nofZ 320) x) (map Fin (map norm1 l)) =
               existsb (fun x => Rleb 320 x) (map norm1 l)).
  { clear E1. induction (map norm1 l); [reflexivity|]. cbn [map existsb]. rewrite IHl0. reflexivity. }
  rewrite E2. destruct (existsb (fun x => Rleb 320 x) (map norm1 l)); auto.
  rewrite !map_map. apply map_ext. intros x. cbn. destruct (Rleb (norm1 x) 40); auto.
Qed.

Lemma norm1_meridian x : same_meridian x (norm1 x).
Proof.
  unfold norm1. destruct (Rltb x 0); [exists 1%Z|exists 0%Z]; lra.
Qed.

Lemma Forall2_map_r {A B} (P : A -> B -> Prop) f l : (forall x, P x (f x)) -> Forall2 P l (map f l).
Proof. intros Hf. induction l; simpl; constructor; auto. Qed.

Lemma wrapR_meridian l : Forall2 same_meridian l (wrapR l).
Proof.
  unfold wrapR. destruct (seam l); apply Forall2_map_r; intros x.
  - destruct (norm1_meridian x) as [k Hk]. destruct (Rleb (norm1 x) 40).
    + exists (k + 1)%Z. rewrite plus_IZR. lra.
    + exists k. auto.
  - apply norm1_meridian.
Qed.

Lemma norm1_range x : -360 <= x <= 360 -> 0 <= norm1 x <= 360.
Proof. intros. unfold norm1. rcase; rb; lra. Qed.

Lemma wrapR_range l : (forall x, In x l -> -360 <= x <= 360) ->
  forall y, In y (wrapR l) -> 0 <= y <= 400.
Proof.
  intros Hl y. unfold wrapR. destruct (seam l); rewrite in_map_iff; intros (x & <- & Hx);
    apply Hl, norm1_range in Hx.
  - rcase; rb; lra.
  - lra.
Qed.

Lemma seam_true l : seam l = true <-> exists x, In x l /\ 320 <= norm1 x.
Proof.
  unfold seam. rewrite existsb_exists. split.
  - intros (y & Hy & E). apply in_map_iff in Hy as (x & <- & Hx). exists x. split; auto. now rb.
  - intros (x & Hx & E). exists (norm1 x). split; [now apply in_map|]. now rb.
Qed.

Lemma wrapR_no_split l y z : (forall x, In x l -> -360 <= x <= 360) ->
  In y (wrapR l) -> In z (wrapR l) -> ~ (320 <= y /\ z <= 40).
Proof.
  intros Hl Hy Hz [Hy1 Hz1]. unfold wrapR in *. destruct (seam l) eqn:E.
  - apply in_map_iff in Hz as (x & Ez & Hx). apply Hl, norm1_range in Hx.
    revert Ez. rcase; rb; lra.
  - apply in_map_iff in Hy as (x & Ex & Hx).
    assert (seam l = true) by (apply seam_true; exists x; split; auto; lra). congruence.
Qed.

Lemma norm1_id x : 0 <= x -> norm1 x = x.
Proof. intros. unfold norm1. rcase; rb; lra. Qed.

Lemma map_id_in {A} (f : A -> A) l : (forall x, In x l -> f x = x) -> map f l = l.
Proof. intros Hf. induction l; simpl; auto. rewrite Hf by (left; auto). f_equal. apply IHl. intros; apply Hf; right; auto. Qed.

Lemma wrapR_idem l : (forall x, In x l -> -360 <= x <= 360) -> wrapR (wrapR l) = wrapR l.
Proof.
  intros Hl. pose proof (wrapR_range l Hl) as Hr.
  pose proof (fun y z => wrapR_no_split l y z Hl) as Hs.
  remember (wrapR l) as w. clear Heqw. unfold wrapR.
  destruct (seam w) eqn:E.
  - apply seam_true in E as (y & Hy & Hy'). rewrite norm1_id in Hy' by (apply Hr; auto).
    apply map_id_in. intros z Hz. rewrite norm1_id by (apply Hr; auto).
    rcase; auto. rb. exfalso. apply (Hs y z); auto.
  - apply map_id_in. intros z Hz. apply norm1_id. apply Hr; auto.
Qed.

Lemma west_norm x : -360 <= x <= 360 -> (west_of_seam x <-> 320 <= norm1 x).
Proof. intros. unfold west_of_seam, norm1. rcase; rb; lra. Qed.
Lemma east_norm x : -360 <= x <= 360 -> (east_of_seam x <-> norm1 x <= 40).
Proof. intros. unfold east_of_seam, norm1. rcase; rb; lra. Qed.

Lemma map_inj_Fin a b : map Fin a = map Fin b -> a = b.
Proof.
  revert b; induction a; destruct b; simpl; intros E; try discriminate; auto.
  inversion E. f_equal; auto.
Qed.

Lemma wrapR_length l : length (wrapR l) = length l.
Proof. unfold wrapR. destruct (seam l); now rewrite map_length. Qed.

Lemma map_nth' {A B} (f : A -> B) l i da db : (i < length l)%nat -> nth i (map f l) db = f (nth i l da).
Proof. intros. rewrite (nth_indep _ _ (f da)) by (now rewrite map_length). apply map_nth. Qed.

Lemma wrapR_take l idx : (forall x, In x l -> -360 <= x <= 360) ->
  (forall i, In i idx -> (i < length l)%nat) ->
  (take 0 (wrapR l) idx = wrapR (take 0 l idx) <->
   (forall i, In i idx -> ~ east_of_seam (nth i l 0))
   \/ (exists i, In i idx /\ west_of_seam (nth i l 0))
   \/ (forall x, In x l -> ~ west_of_seam x)).
Proof.
  intros Hl Hidx.
  assert (Hn : forall i, In i idx -> -360 <= nth i l 0 <= 360)
    by (intros i Hi; apply Hl, nth_In; auto).
  assert (Hse : seam (take 0 l idx) = true <-> exists i, In i idx /\ west_of_seam (nth i l 0)).
  { rewrite seam_true. split.
    - intros (x & Hx & E). unfold take in Hx. apply in_map_iff in Hx as (i & <- & Hi).
      exists i. split; auto. apply west_norm; auto.
    - intros (i & Hi & E). exists (nth i l 0). split; [apply (in_map (fun i => nth i l 0)); auto|].
      apply west_norm; auto. }
  assert (Hsl : seam l = true <-> exists x, In x l /\ west_of_seam x).
  { rewrite seam_true. split; intros (x & Hx & E); exists x; split; auto; apply west_norm; auto. }
  assert (Hsub : seam (take 0 l idx) = true -> seam l = true).
  { rewrite Hse, Hsl. intros (i & Hi & E). exists (nth i l 0). split; auto. apply nth_In; auto. }
  unfold wrapR at 1 2.
  destruct (seam l) eqn:E1.
  - destruct (seam (take 0 l idx)) eqn:E2.
    + split; [intros _; right; left; now apply Hse|intros _].
      unfold take. rewrite map_map. apply map_ext_in. intros i Hi.
      now rewrite (map_nth' _ l i 0) by auto.
    + split.
      * intros E. left. intros i Hi He. apply east_norm in He; auto.
        unfold take in E. rewrite map_map in E.
        assert (G : nth i (map (fun x => if Rleb (norm1 x) 40 then 360 + norm1 x else norm1 x) l) 0
                    = norm1 (nth i l 0)).
        { revert E Hi. clear. induction idx as [|j idx IH]; simpl; [tauto|].
          intros E [<-|Hi]; inversion E; auto. }
        rewrite (map_nth' _ l i 0) in G by auto.
        assert (Rleb (norm1 (nth i l 0)) 40 = true) as Q by now rb. rewrite Q in G. lra.
      * intros [Hno|[Hw|Hw]].
        -- unfold take. rewrite map_map. apply map_ext_in. intros i Hi.
           rewrite (map_nth' _ l i 0) by auto.
           assert (Rleb (norm1 (nth i l 0)) 40 = false) as ->; auto.
           rb. destruct (Rlt_le_dec 40 (norm1 (nth i l 0))); auto.
           exfalso. apply (Hno i Hi). apply east_norm; auto.
        -- apply Hse in Hw. congruence.
        -- apply proj1 in Hsl. destruct (Hsl eq_refl) as (x & Hx & E). exfalso. eapply Hw; eauto.
  - assert (seam (take 0 l idx) = false) as ->.
    { destruct (seam (take 0 l idx)) eqn:E; auto. specialize (Hsub eq_refl). discriminate. }
    split; intros _.
    + right; right. intros x Hx Hw.
      assert (false = true) by (apply Hsl; eauto). discriminate.
    + unfold take. rewrite map_map. apply map_ext_in. intros i Hi.
      now rewrite (map_nth' _ l i 0) by auto.
Qed.
End Wrap.

(* ------------------------------------------------------------------ *)
Section PV.
Local Open Scope R_scope.

Definition omega2 : R := 2 * (7292 / 1000) * (1 / 100000).

Lemma omega2_pos : 0 < omega2.
Proof. unfold omega2. lra. Qed.

Lemma pv_eval lat z : z <> 0 ->
  potential_vorticity (Fin lat) (Fin z) =
  Ok (Fin (if Req_EM_T (sin (lat * PI / 180)) 0 then 1 / 100000 else omega2 * sin (lat * PI / 180) / z)).
Proof.
  intros Hz. unfold potential_vorticity. rewrite !nq_fin by discriminate.
  cbn [npi XR_NumT]. change (nmul (Fin lat) (Fin PI)) with (Fin (lat * PI)).
  change (@nofZ XR XR_Num 180) with (Fin 180). rewrite ndiv_fin by lra.
  cbn [nsin XR_NumT].
  change (nmul (nmul (nmul (nofZ 2) (Fin (7292 / 1000))) (Fin (1 / 100000))) (Fin (sin (lat * PI / 180))))
    with (Fin (omega2 * sin (lat * PI / 180))).
  rewrite pydiv_fin by auto. cbn [bind neqb nofZ XR_Num xeqb]. unfold Reqb.
  pose proof omega2_pos.
  destruct (Req_EM_T (sin (lat * PI / 180)) 0) as [E|E].
  - rewrite E. destruct (Req_EM_T (omega2 * 0 / z) 0) as [_|n]; [reflexivity|].
    exfalso; apply n. unfold Rdiv. ring.
  - destruct (Req_EM_T (omega2 * sin (lat * PI / 180) / z) 0) as [E2|n]; [|reflexivity].
    exfalso. apply Rmult_integral in E2 as [E2|E2].
    + apply Rmult_integral in E2 as [E2|E2]; [lra|auto].
    + now apply Rinv_neq_0_compat in E2.
Qed.

Lemma pv_zero_depth lat : potential_vorticity (Fin lat) (Fin 0) = Raise ZeroDivisionError.
Proof.
  unfold potential_vorticity. rewrite !nq_fin by discriminate.
  cbn [npi XR_NumT]. change (nmul (Fin lat) (Fin PI)) with (Fin (lat * PI)).
  change (@nofZ XR XR_Num 180) with (Fin 180). rewrite ndiv_fin by lra.
  cbn [nsin XR_NumT].
  change (nmul (nmul (nmul (nofZ 2) (Fin (7292 / 1000))) (Fin (1 / 100000))) (Fin (sin (lat * PI / 180))))
    with (Fin (omega2 * sin (lat * PI / 180))).
  now rewrite pydiv_zero.
Qed.

Lemma rad_pos lat : 0 < lat < 180 -> 0 < sin (lat * PI / 180).
Proof. intros Hl. apply sin_gt_0; pose proof PI_RGT_0; nra. Qed.

Lemma rad_neg lat : sin ((- lat) * PI / 180) = - sin (lat * PI / 180).
Proof. rewrite <- sin_neg. f_equal. unfold Rdiv. ring. Qed.

Lemma pv_props lat z : z <> 0 ->
  exists v, potential_vorticity (Fin lat) (Fin z) = Ok (Fin v) /\ v <> 0
    /\ (sin (lat * PI / 180) <> 0 -> v = 2 * (7292/1000) / 100000 * sin (lat * PI / 180) / z
        /\ potential_vorticity (Fin (- lat)) (Fin z) = Ok (Fin (- v)))
    /\ (lat = 0 -> v = 1 / 100000)
    /\ (0 < z -> 0 < lat < 180 -> 0 < v)
    /\ (0 < z -> -180 < lat < 0 -> v < 0).
Proof.
  intros Hz. rewrite !pv_eval by auto. eexists. split; [reflexivity|].
  rewrite rad_neg. pose proof omega2_pos as Ho.
  set (s := sin (lat * PI / 180)).
  split; [|split; [|split; [|split]]].
  - destruct (Req_EM_T s 0); [lra|]. unfold Rdiv.
    repeat apply Rmult_integral_contrapositive_currified; auto; try lra. now apply Rinv_neq_0_compat.
  - intros Hs. destruct (Req_EM_T s 0); [contradiction|].
    destruct (Req_EM_T (- s) 0) as [E|E]; [lra|].
    split; [unfold omega2; field; auto|]. f_equal. f_equal. unfold Rdiv. ring.
  - intros ->. destruct (Req_EM_T s 0); auto. exfalso. apply n. unfold s.
    rewrite Rmult_0_l. unfold Rdiv. rewrite Rmult_0_l. apply sin_0.
  - intros Hz0 Hl. apply rad_pos in Hl. fold s in Hl.
    destruct (Req_EM_T s 0); [lra|]. apply Rdiv_lt_0_compat; auto. now apply Rmult_lt_0_compat.
  - intros Hz0 Hl. assert (H : 0 < - lat < 180) by lra. apply rad_pos in H. rewrite rad_neg in H. fold s in H.
    destruct (Req_EM_T s 0); [lra|]. apply Ropp_lt_cancel. rewrite Ropp_0.
    replace (- (omega2 * s / z)) with (omega2 * - s / z) by (unfold Rdiv; ring).
    apply Rdiv_lt_0_compat; auto. now apply Rmult_lt_0_compat.
Qed.
End PV.

(* ------------------------------------------------------------------ *)
Section Cal2dec.

Definition month_ok (m : Z) : Prop := (-13 <= m <= 12)%Z.

Lemma py_index_cum m : month_ok m ->
  py_index cumulative_months m = Some (days_before (if (m <? 0)%Z then m + 13 else m)).
Proof.
  unfold month_ok. intros Hm.
  assert (H : (m = -13 \/ m = -12 \/ m = -11 \/ m = -10 \/ m = -9 \/ m = -8 \/ m = -7 \/ m = -6 \/ m = -5
    \/ m = -4 \/ m = -3 \/ m = -2 \/ m = -1 \/ m = 0 \/ m = 1 \/ m = 2 \/ m = 3 \/ m = 4 \/ m = 5 \/ m = 6
    \/ m = 7 \/ m = 8 \/ m = 9 \/ m = 10 \/ m = 11 \/ m = 12)%Z) by lia.
  repeat (destruct H as [->|H]; [reflexivity|]). subst; reflexivity.
Qed.

Lemma py_index_none m : ~ month_ok m -> py_index cumulative_months m = None.
Proof.
  unfold month_ok, py_index. cbn [length cumulative_months]. intros Hm.
  destruct (Z.leb_spec 0 m), (Z.ltb_spec m (Z.of_nat 13)),
    (Z.leb_spec (- Z.of_nat 13) m), (Z.ltb_spec m 0); simpl; auto; lia.
Qed.

Lemma cal2dec_eval m d h mi : month_ok m ->
  let mm := (if (m <? 0)%Z then m + 13 else m)%Z in
  cal2dec m d h mi =
  if (minute_of_year mm d h mi <=? 366 * 1440)%Z
  then Ok (Fin (IZR (minute_of_year mm d h mi) / 1440)) else Raise ValueError.
Proof.
  intros Hm mm. unfold cal2dec. rewrite py_index_cum by auto. fold mm.
  cbn [nofZ XR_Num]. rewrite !ndiv_fin by lra.
  assert (E : nadd (nadd (Fin (IZR (days_before mm + d - 1))) (Fin (IZR h / 24))) (Fin (IZR mi / 60 / 24))
              = Fin (IZR (minute_of_year mm d h mi) / 1440)).
  { cbn. f_equal. unfold minute_of_year. rewrite !plus_IZR, !mult_IZR, !plus_IZR, !mult_IZR.
    rewrite !minus_IZR, !plus_IZR. field. }
  rewrite E. cbn [nltb XR_Num xltb].
  destruct (Z.leb_spec (minute_of_year mm d h mi) (366*1440)) as [L|L].
  - assert (Rltb 366 (IZR (minute_of_year mm d h mi) / 1440) = false) as ->; auto.
    rb. apply IZR_le in L. rewrite mult_IZR in L. lra.
  - assert (Rltb 366 (IZR (minute_of_year mm d h mi) / 1440) = true) as ->; auto.
    rb. apply IZR_lt in L. rewrite mult_IZR in L. lra.
Qed.

Lemma cal2dec_bad m d h mi : ~ month_ok m -> @cal2dec XR _ m d h mi = Raise ValueError.
Proof. intros Hm. unfold cal2dec. now rewrite py_index_none. Qed.

Lemma cal2dec_discipline m d h mi :
  let mm := (if (m <? 0)%Z then m + 13 else m)%Z in
  (cal2dec m d h mi = Ok (Fin (IZR (minute_of_year mm d h mi) / 1440))
     /\ (-13 <= m <= 12)%Z /\ (minute_of_year mm d h mi <= 366 * 1440)%Z)
  \/ (@cal2dec XR _ m d h mi = Raise ValueError
      /\ ~ ((-13 <= m <= 12)%Z /\ (minute_of_year mm d h mi <= 366 * 1440)%Z)).
Proof.
  intros mm. destruct (Z.le_decidable (-13) m) as [A|A]; [destruct (Z.le_decidable m 12) as [B|B]|].
  - rewrite cal2dec_eval by (split; auto). fold mm.
    destruct (Z.leb_spec (minute_of_year mm d h mi) (366*1440)); [left|right]; split; auto; try lia.
  - right. split; [apply cal2dec_bad; unfold month_ok; lia|lia].
  - right. split; [apply cal2dec_bad; unfold month_ok; lia|lia].
Qed.

Ltac months m Hm :=
  assert (Hcases : (m = 0 \/ m = 1 \/ m = 2 \/ m = 3 \/ m = 4 \/ m = 5 \/ m = 6
    \/ m = 7 \/ m = 8 \/ m = 9 \/ m = 10 \/ m = 11)%Z) by lia;
  repeat (destruct Hcases as [->|Hcases]).

Lemma days_before_step m m' : (0 <= m < m')%Z -> (m' <= 11)%Z ->
  (days_before m + nth (Z.to_nat m) month_length 0 <= days_before m')%Z.
Proof.
  intros A B.
  assert (H : (m = 0 \/ m = 1 \/ m = 2 \/ m = 3 \/ m = 4 \/ m = 5 \/ m = 6
    \/ m = 7 \/ m = 8 \/ m = 9 \/ m = 10)%Z) by lia.
  assert (H' : (m' = 1 \/ m' = 2 \/ m' = 3 \/ m' = 4 \/ m' = 5 \/ m' = 6
    \/ m' = 7 \/ m' = 8 \/ m' = 9 \/ m' = 10 \/ m' = 11)%Z) by lia.
  repeat (destruct H as [->|H]); try subst m;
  repeat (destruct H' as [->|H']); try subst m'; vm_compute; try lia; discriminate.
Qed.

Lemma days_before_range m : (0 <= m <= 11)%Z ->
  (0 <= days_before m /\ days_before m + nth (Z.to_nat m) month_length 0 <= 365)%Z.
Proof.
  intros A.
  assert (H : (m = 0 \/ m = 1 \/ m = 2 \/ m = 3 \/ m = 4 \/ m = 5 \/ m = 6
    \/ m = 7 \/ m = 8 \/ m = 9 \/ m = 10 \/ m = 11)%Z) by lia.
  repeat (destruct H as [->|H]); try subst m; vm_compute; split; discriminate.
Qed.

Lemma real_date_range m d h mi : real_date m d h mi -> (0 <= minute_of_year m d h mi < 365 * 1440)%Z.
Proof.
  intros (Hm & Hd & Hh & Hi). pose proof (days_before_range m Hm). unfold minute_of_year. nia.
Qed.

Lemma earlier_lt m d h i m' d' h' i' :
  real_date m d h i -> real_date m' d' h' i' -> earlier (m,d,h,i) (m',d',h',i') ->
  (minute_of_year m d h i < minute_of_year m' d' h' i')%Z.
Proof.
  intros (Hm & Hd & Hh & Hi) (Hm' & Hd' & Hh' & Hi') E. unfold minute_of_year.
  destruct E as [E|[-> E]].
  - pose proof (days_before_step m m' ltac:(lia) ltac:(lia)). nia.
  - nia.
Qed.

Lemma cal2dec_real m d h i : real_date m d h i ->
  cal2dec m d h i = Ok (Fin (IZR (minute_of_year m d h i) / 1440)).
Proof.
  intros Hr. pose proof (real_date_range _ _ _ _ Hr). destruct Hr as (Hm & _).
  rewrite cal2dec_eval by (unfold month_ok; lia).
  destruct (Z.ltb_spec m 0); [lia|]. destruct (Z.leb_spec (minute_of_year m d h i) (366*1440)); auto. lia.
Qed.

Lemma cal2dec_order m d h i m' d' h' i' :
  real_date m d h i -> real_date m' d' h' i' -> earlier (m,d,h,i) (m',d',h',i') ->
  exists a b, cal2dec m d h i = Ok (Fin a) /\ cal2dec m' d' h' i' = Ok (Fin b)
    /\ (0 <= a /\ a < b /\ b < 365)%R
    /\ a = (IZR (minute_of_year m d h i) / 1440)%R.
Proof.
  intros R1 R2 E. do 2 eexists. split; [now apply cal2dec_real|]. split; [now apply cal2dec_real|].
  split; [|reflexivity].
  pose proof (real_date_range _ _ _ _ R1) as [A _]. pose proof (real_date_range _ _ _ _ R2) as [_ B].
  pose proof (earlier_lt _ _ _ _ _ _ _ _ R1 R2 E) as C.
  apply IZR_le in A. apply IZR_lt in B, C. rewrite mult_IZR in B. lra.
Qed.
End Cal2dec.
