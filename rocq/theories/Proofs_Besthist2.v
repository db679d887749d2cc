(* Statement-shaped lemmas for find_ellipse and find_besthist *)
From Coq Require Import ZArith List Bool Reals Lra Lia Permutation Sorted.
From Verif Require Import Num Np NumFacts NpFacts Utilities Finders Spec_Utilities Spec_Finders
  Proofs_Utilities4 Proofs_Finders Proofs_Besthist.
Import ListNotations.
Local Open Scope R_scope.

(* ---- C13 ---- *)
Lemma ellipse_main dl cl sl da ca sa phi dp cp : sl <> 0 -> sa <> 0 -> phi <> 0 ->
  exists e, find_ellipse (Fin dl) (Fin cl) (Fin sl) (Fin da) (Fin ca) (Fin sa) (Fin phi) (Fin dp) (Fin cp) = Ok (Fin e)
  /\ e ^ 2 = ellipse2 dl cl sl da ca sa phi dp cp /\ 0 <= e
  /\ find_ellipse (Fin cl) (Fin dl) (Fin sl) (Fin ca) (Fin da) (Fin sa) (Fin phi) (Fin cp) (Fin dp) = Ok (Fin e)
  /\ (dl = cl -> da = ca -> dp = cp -> e = 0)
  /\ (e < 1 <-> ellipse2 dl cl sl da ca sa phi dp cp < 1).
Proof.
  intros Hl Ha Hp. exists (sqrt (ellipse2 dl cl sl da ca sa phi dp cp)).
  pose proof (ellipse2_nonneg dl cl sl da ca sa phi dp cp) as N.
  split; [now apply find_ellipse_eval|]. split; [now rewrite pow2_sqrt|]. split; [apply sqrt_pos|].
  split; [|split].
  - rewrite find_ellipse_eval by auto. do 3 f_equal. unfold ellipse2. rewrite (vd2_sym phi cp dp).
    f_equal. f_equal; field; auto.
  - intros -> -> ->. rewrite <- sqrt_0. f_equal. unfold ellipse2, vorticity_distance2.
    destruct (Req_EM_T cp 0); [field; auto|]. field. repeat split; auto. nra.
  - now apply sqrt_lt_1_iff.
Qed.

Lemma sq_div_le a s t : 0 < s -> s <= t -> (a / t) ^ 2 <= (a / s) ^ 2.
Proof.
  intros Hs Ht.
  assert (E : forall u, u <> 0 -> (a / u) ^ 2 = a ^ 2 * (/ u) ^ 2) by (intros; field; auto).
  rewrite !E by lra. apply Rmult_le_compat_l; [apply pow2_ge_0|].
  apply pow_incr. split; [left; apply Rinv_0_lt_compat; lra|]. now apply Rinv_le_contravar.
Qed.

Lemma vd2_mono phi phi' p1 p2 : 0 < phi -> phi <= phi' -> vorticity_distance2 phi' p1 p2 <= vorticity_distance2 phi p1 p2.
Proof.
  intros H0 H1. unfold vorticity_distance2. destruct (Req_EM_T p1 0); [lra|]. destruct (Req_EM_T p2 0); [lra|].
  unfold Rdiv. apply Rmult_le_compat_l.
  - apply Rmult_le_pos; [apply pow2_ge_0|]. left. apply Rinv_0_lt_compat. nra.
  - apply Rinv_le_contravar; nra.
Qed.

Lemma ellipse_larger dl cl sl da ca sa phi dp cp sl' sa' phi' e :
  0 < sl -> 0 < sa -> 0 < phi -> sl <= sl' -> sa <= sa' -> phi <= phi' ->
  find_ellipse (Fin dl) (Fin cl) (Fin sl) (Fin da) (Fin ca) (Fin sa) (Fin phi) (Fin dp) (Fin cp) = Ok (Fin e) ->
  exists e', find_ellipse (Fin dl) (Fin cl) (Fin sl') (Fin da) (Fin ca) (Fin sa') (Fin phi') (Fin dp) (Fin cp) = Ok (Fin e')
    /\ e' <= e.
Proof.
  intros H1 H2 H3 L1 L2 L3. rewrite find_ellipse_eval by lra. intros E. injection E as <-.
  rewrite find_ellipse_eval by lra. eexists; split; [reflexivity|]. apply sqrt_le_1; try apply ellipse2_nonneg.
  unfold ellipse2. pose proof (sq_div_le (dl - cl) (3 * sl) (3 * sl')). pose proof (sq_div_le (da - ca) (3 * sa) (3 * sa')).
  pose proof (vd2_mono phi phi' dp cp). lra.
Qed.

(* ---- C17 ---- *)
Lemma rank_no_pv p c : b_pv p = false -> rank_large p c = sep_large p c /\ rank_small p c = sep_small p c.
Proof. intros E. unfold rank_large, rank_small. rewrite E. lra. Qed.

Lemma besthist_closest {rng} (seed : Z -> rng) rand qs p grid m g0 ie :
  rand_ok rand -> argsort_ok qs -> scales_ok p -> b_pv p = false ->
  inside_list p grid ie -> (m < Z.of_nat (length ie))%Z -> (m = 3 \/ 5 <= m)%Z ->
  let n := length ie in let c := Z.to_nat (third m) in
    exists r l s,
      fst (besthist seed rand qs p grid m g0) = Ok (r ++ l ++ s)%list
      /\ (1 <= length r <= c)%nat /\ (length r + length l = 2 * c)%nat /\ Z.of_nat (length s) = (m - 2 * third m)%Z
      /\ (forall i, In i r -> exists u k, In (Fin u) (fst (rand (seed (Z.of_nat n)) c)) /\ drawn n u k /\ i = nth k ie 0%nat)
      /\ (forall u, In (Fin u) (fst (rand (seed (Z.of_nat n)) c)) -> exists k, drawn n u k /\ In (nth k ie 0%nat) r)
      /\ (forall i j, In i l -> In j ie -> ~ In j (r ++ l) ->
            sep_large p (nth i grid dcastR) <= sep_large p (nth j grid dcastR))
      /\ (forall i j, In i s -> In j ie -> ~ In j (r ++ l ++ s) ->
            sep_small p (nth i grid dcastR) <= sep_small p (nth j grid dcastR)).
Proof.
  intros Hr Hq Hs Hp Hie Hm Hv n c.
  assert (Hne : grid <> []).
  { intros ->. destruct ie as [|i ie]; [simpl in Hm; lia|].
    destruct (proj1 (proj2 Hie i) (or_introl eq_refl)) as [Hl _]. simpl in Hl. lia. }
  destruct (besthist_optimal seed rand qs Hr Hq p grid Hs) with (m := m) (g0 := g0) (ie := ie)
    as (r & l & s & E & L1 & L2 & L3 & D1 & D2 & O1 & O2); auto.
  { unfold depths_ok. rewrite Hp. discriminate. }
  exists r, l, s. repeat (split; [assumption|]). split.
  - intros i j Hi Hj Hn. rewrite <- !(proj1 (rank_no_pv p _ Hp)). auto.
  - intros i j Hi Hj Hn. rewrite <- !(proj2 (rank_no_pv p _ Hp)). auto.
Qed.

(* ---- C19 ---- *)
Definition pv_problem : problem := mkProblem 30 0 2000 1000 1 1 1 1 2 2 10 10 1.
Definition pv_grid : list (cast R) :=
  [mkCast 30 0 2000 500; mkCast 30 0 2000 1000; mkCast 30 0 2000 100; mkCast 30 0 2000 200].

Lemma sin30 : sin (30 * PI / 180) = 1 / 2.
Proof. replace (30 * PI / 180) with (PI / 6) by field. apply sin_PI6. Qed.

Lemma vort30 z : z <> 0 -> vort 30 z = 7292 / 100000000 / z.
Proof.
  intros Hz. unfold vort. rewrite sin30. destruct (Req_EM_T (1/2) 0); [lra|]. field. auto.
Qed.

Lemma vd2_30 phi z w : 0 < z -> 0 < w -> phi <> 0 ->
  vorticity_distance2 phi (7292 / 100000000 / z) (7292 / 100000000 / w)
  = (w - z) ^ 2 / (z ^ 2 + w ^ 2) / phi ^ 2.
Proof.
  intros Hz Hw Hp. unfold vorticity_distance2.
  assert (Pz : 0 < 7292 / 100000000 / z) by (apply Rdiv_lt_0_compat; lra).
  assert (Pw : 0 < 7292 / 100000000 / w) by (apply Rdiv_lt_0_compat; lra).
  destruct (Req_EM_T _ 0); [lra|]. destruct (Req_EM_T _ 0); [lra|].
  field. repeat split; auto; nra.
Qed.

Lemma pv_sep c : c_lat c = 30 -> c_long c = 0 -> c_date c = 2000 -> 0 < c_z c ->
  (inside pv_problem c <-> (1000 - c_z c) ^ 2 / (c_z c ^ 2 + 1000 ^ 2) / 2 ^ 2 < 1)
  /\ sep_large_pv pv_problem c = (1000 - c_z c) ^ 2 / (c_z c ^ 2 + 1000 ^ 2) / 2 ^ 2
  /\ sep_small_pv pv_problem c = (1000 - c_z c) ^ 2 / (c_z c ^ 2 + 1000 ^ 2) / 2 ^ 2.
Proof.
  intros E1 E2 E3 Hz.
  assert (V : vorticity_distance2 2 (vort_cast pv_problem c) (vort_float pv_problem)
              = (1000 - c_z c) ^ 2 / (c_z c ^ 2 + 1000 ^ 2) / 2 ^ 2).
  { unfold vort_cast, vort_float. change (b_pv pv_problem) with true. cbv iota. rewrite E1.
    change (b_lat pv_problem) with 30. change (b_z pv_problem) with 1000. rewrite !vort30 by lra. apply vd2_30; lra. }
  unfold inside, ellipse2, sep_large_pv, sep_small_pv, sep_large, sep_small, scaled_distance2.
  cbn [pv_problem b_long b_longL b_longS b_lat b_latL b_latS b_phiL b_phiS b_date b_ageL b_ageS].
  fold pv_problem. rewrite V, E1, E2, E3.
  replace (((0 - 0) / (3 * 1)) ^ 2 + ((30 - 30) / (3 * 1)) ^ 2) with 0 by field.
  replace (((0 - 0) / 1) ^ 2 + ((30 - 30) / 1) ^ 2 + ((2000 - 2000) / 10) ^ 2) with 0 by field.
  rewrite !Rplus_0_l. split; [reflexivity|]. split; ring.
Qed.

Lemma pv_rank c : c_lat c = 30 -> c_long c = 0 -> c_date c = 2000 -> 0 < c_z c ->
  exists k, 0 < k /\ rank_large pv_problem c = k * c_z c ^ 2 /\ rank_small pv_problem c = k * c_z c ^ 2
    /\ k = (7292 / 100000000000 - 2) ^ 2 / ((7292 / 100000000000) ^ 2 + 2 ^ 2) / (7292 / 100000000) ^ 2.
Proof.
  intros E1 E2 E3 Hz. eexists. split; [|split; [|split; [|reflexivity]]].
  - apply Rdiv_lt_0_compat; [apply Rdiv_lt_0_compat|]; nra.
  - unfold rank_large. change (b_pv pv_problem) with true. cbv iota.
    unfold sep_large, scaled_distance2, vort_cast, vort_float. change (b_pv pv_problem) with true. cbv iota.
    cbn [pv_problem b_long b_longL b_lat b_latL b_phiL b_date b_ageL b_z]. rewrite E1, E2, E3.
    rewrite !vort30 by lra. unfold vorticity_distance2.
    destruct (Req_EM_T (7292 / 100000000 / 1000) 0); [lra|]. destruct (Req_EM_T 2 0); [lra|].
    field. repeat split; nra.
  - unfold rank_small. change (b_pv pv_problem) with true. cbv iota.
    unfold sep_small, scaled_distance2, vort_cast, vort_float. change (b_pv pv_problem) with true. cbv iota.
    cbn [pv_problem b_long b_longS b_lat b_latS b_phiS b_date b_ageS b_z]. rewrite E1, E2, E3.
    rewrite !vort30 by lra. unfold vorticity_distance2.
    destruct (Req_EM_T (7292 / 100000000 / 1000) 0); [lra|]. destruct (Req_EM_T 2 0); [lra|].
    field. repeat split; nra.
Qed.

Lemma pv_inside : inside_list pv_problem pv_grid [0;1;2;3]%nat.
Proof.
  split; [repeat constructor|]. intros i. split.
  - intros Hi. assert (Hl : (i < 4)%nat) by (simpl in Hi; lia). split; [exact Hl|].
    destruct i as [|[|[|[|]]]]; [| | | |lia]; apply pv_sep; cbn; lra.
  - intros [Hl _]. simpl in Hl. simpl. lia.
Qed.

Definition quarter_rand (g : unit) (k : nat) : list XR * unit := (map Fin (repeat (1/4) k), tt).

Lemma quarter_rand_ok : rand_ok quarter_rand.
Proof.
  intros g k. exists (repeat (1/4) k). split; [reflexivity|]. split; [apply repeat_length|].
  apply Forall_forall. intros u Hu. apply repeat_spec in Hu. lra.
Qed.

Lemma pv_scales : scales_ok pv_problem.
Proof. unfold scales_ok. cbn [pv_problem b_latL b_latS b_longL b_longS b_ageL b_ageS b_phiL b_phiS b_z]. repeat split; lra. Qed.
Lemma pv_depths : depths_ok pv_problem pv_grid.
Proof. intros _ c Hc. simpl in Hc. decompose [or] Hc; subst; cbn; try lra; contradiction. Qed.

Lemma Forall_rank i j : (i < 4)%nat -> (j < 4)%nat ->
  (rank_large pv_problem (nth i pv_grid dcastR) <= rank_large pv_problem (nth j pv_grid dcastR)
   \/ rank_small pv_problem (nth i pv_grid dcastR) <= rank_small pv_problem (nth j pv_grid dcastR)) ->
  c_z (nth i pv_grid dcastR) <= c_z (nth j pv_grid dcastR).
Proof.
  intros Hi Hj H.
  assert (G : forall i, (i < 4)%nat -> let c := nth i pv_grid dcastR in
      c_lat c = 30 /\ c_long c = 0 /\ c_date c = 2000 /\ 0 < c_z c).
  { intros x Hx. destruct x as [|[|[|[|]]]]; [| | | |lia]; cbn; lra. }
  destruct (G i Hi) as (A1 & A2 & A3 & A4). destruct (G j Hj) as (B1 & B2 & B3 & B4).
  destruct (pv_rank _ A1 A2 A3 A4) as (k & K & R1 & R2 & Ek).
  destruct (pv_rank _ B1 B2 B3 B4) as (k' & K' & R1' & R2' & Ek').
  rewrite <- Ek in Ek'. clear Ek. subst k'. rewrite R1, R2, R1', R2' in H.
  assert (k * c_z (nth i pv_grid dcastR) ^ 2 <= k * c_z (nth j pv_grid dcastR) ^ 2) by (destruct H; assumption).
  apply Rmult_le_reg_l in H0; auto. nra.
Qed.

Lemma besthist_pv_wrong :
  exists (p : problem) (grid : list (cast R)) (rand : unit -> nat -> list XR * unit),
    scales_ok p /\ depths_ok p grid /\ rand_ok rand /\
    (* cast 1 coincides with the float, the others are farther away in both measures *)
    nth 1 grid dcastR = mkCast (b_lat p) (b_long p) (b_date p) (b_z p) /\
    (forall i, (i < length grid)%nat -> i <> 1%nat ->
        sep_large_pv p (nth 1 grid dcastR) < sep_large_pv p (nth i grid dcastR)
        /\ sep_small_pv p (nth 1 grid dcastR) < sep_small_pv p (nth i grid dcastR)) /\
    forall seed qs g0, argsort_ok qs ->
      exists l, fst (besthist seed rand qs p grid 3 g0) = Ok l /\ length l = 3%nat /\ ~ In 1%nat l.
Proof.
  exists pv_problem, pv_grid, quarter_rand.
  split; [apply pv_scales|]. split; [apply pv_depths|]. split; [apply quarter_rand_ok|]. split; [reflexivity|]. split.
  { intros i Hi Hn. destruct i as [|[|[|[|]]]]; [|congruence| | |simpl in Hi; lia].
    all: cbn [nth pv_grid]; split.
    all: match goal with |- ?f _ ?a < ?f _ ?b =>
      destruct (pv_sep a) as (_ & Ea & Ea'); [reflexivity..|cbn; lra|];
      destruct (pv_sep b) as (_ & Eb & Eb'); [reflexivity..|cbn; lra|];
      rewrite ?Ea, ?Ea', ?Eb, ?Eb'; cbn [c_z]; lra end. }
  intros seed qs g0 Hqs.
  destruct (besthist_optimal seed quarter_rand qs quarter_rand_ok Hqs pv_problem pv_grid pv_scales pv_depths 3 g0
     [0;1;2;3]%nat) as (r & l & s & E & L1 & L2 & L3 & D1 & D2 & O1 & O2);
     [discriminate|apply pv_inside|simpl; lia|lia|].
  change (Z.to_nat (third 3)) with 1%nat in *. change (third 3) with 1%Z in *.
  exists (r ++ l ++ s)%list. split; [exact E|].
  assert (Er : r = [0%nat]).
  { destruct r as [|a [|]]; [simpl in L1; lia| |simpl in L1; lia].
    destruct (D1 a (or_introl eq_refl)) as (u & k & Hu & [Hk Hd] & ->). simpl in Hu. destruct Hu as [Hu|[]].
    injection Hu as <-. simpl length in *. 
    assert (k = 0)%nat.
    { destruct Hd as [Hd|[Hd _]]; auto. simpl INR in Hd.
      destruct k; auto. exfalso. rewrite S_INR in Hd.
      pose proof (pos_INR k). unfold Rabs in Hd. destruct (Rcase_abs _) in Hd; lra. }
    subst k. reflexivity. }
  subst r. simpl in L2. destruct l as [|a [|]]; [simpl in L2; lia| |simpl in L2; lia].
  destruct s as [|b [|]]; [simpl in L3; lia| |simpl length in L3; lia].
  split; [reflexivity|].
  pose proof (besthist_valid seed quarter_rand qs quarter_rand_ok Hqs pv_problem pv_grid pv_scales pv_depths 3 g0 _ E) as [ND V].
  simpl app in *.
  assert (Ha : (a < 4)%nat) by (apply (V a); simpl; auto).
  assert (Hb : (b < 4)%nat) by (apply (V b); simpl; auto).
  inversion ND as [|? ? N1 N2]; subst. inversion N2 as [|? ? N3 N4]; subst. simpl in N1, N3.
  assert (Ea : a <> 1%nat).
  { intros ->. 
    assert (X : c_z (nth 1 pv_grid dcastR) <= c_z (nth 2 pv_grid dcastR)).
    { apply Forall_rank; try lia. left. apply O1; simpl; auto. lia. }
    cbn in X. lra. }
  assert (Eb : b <> 1%nat).
  { intros ->. 
    destruct (Nat.eq_dec a 2) as [->|].
    - assert (X : c_z (nth 1 pv_grid dcastR) <= c_z (nth 3 pv_grid dcastR)).
      { apply Forall_rank; try lia. right. apply O2; simpl; auto. lia. }
      cbn in X. lra.
    - assert (X : c_z (nth 1 pv_grid dcastR) <= c_z (nth 2 pv_grid dcastR)).
      { apply Forall_rank; try lia. right. apply O2; simpl; auto. lia. }
      cbn in X. lra. }
  simpl. lia.
Qed.

(* an example without the PV option: two casts inside, five casts in the grid *)
