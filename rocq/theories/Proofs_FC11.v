(* Proofs for fit_cond: worked cases and counterexamples *)
From Coq Require Import String ZArith List Bool Reals Lra Lia Sorted Permutation.
From Verif Require Import Num Np NumFacts NpFacts Utilities Finders Stats FitCond Spec_Utilities Spec_Finders Spec_Stats
  Spec_FitCond LinR LeastSq Proofs_Utilities Proofs_Besthist Proofs_Thetas2 Proofs_Stats1 Proofs_Fit Proofs_Curve Proofs_FC1 Proofs_FC2 Proofs_FC3
  Proofs_FC4 Proofs_FC5 Proofs_FC6 Proofs_FC7 Proofs_FC8 Proofs_FC9 Proofs_FC10.
Import ListNotations.
Local Open Scope R_scope.
Local Open Scope list_scope.

(* ---- instances of the oracles ---- *)
Definition exact_inv (n : nat) (A : nat -> nat -> XR) : res (nat -> nat -> XR) :=
  match ginv n (fun i j => fin_val (A i j)) with
  | Some c => Ok (fun i j => Fin (c i j))
  | None => Raise LinAlgError
  end.
Lemma exact_inv_ok : inv_ok exact_inv.
Proof.
  intros n A a H I. unfold exact_inv. pose proof (finmat_val _ _ _ _ H) as E.
  apply (inj_ext n _ _ (eqm_sym _ _ _ _ E)) in I. destruct (inj_invertible n _ I) as (c & -> & [Rc Lc]).
  exists (fun i j => Fin (c i j)), c. split; auto. split; [intros i j _ _; reflexivity|].
  split; intros i j Hi Hj; [rewrite <- (Rc i j Hi Hj)|rewrite <- (Lc i j Hi Hj)]; unfold mm; apply bsum_ext; intros k Hk; now rewrite E.
Qed.
Definition no_noise (n : nat) (g : unit) : list XR * unit := (repeat (Fin 0) n, g).
Lemma no_noise_ok : randn_ok no_noise.
Proof. intros n g. apply repeat_length. Qed.
Definition no_optimum (_ : list XR -> res (list XR)) (_ : list XR) : res (list (list XR) * list XR) := Raise ValueError.
Definition independent (i j : nat) : XR := Fin (delta i j).
Notation run := (fit_cond exact_det exact_solve exact_inv no_optimum unit no_noise).
Definition upto (z : Z) : list (pyval XR) := [VStr "Max_No_Breaks"; VInt z].
Lemma upto_named : @named XR "max_no_breaks"%string (VStr "Max_No_Breaks").
Proof. now exists "Max_No_Breaks"%string. Qed.

Lemma delta_sum l i : NoDup l -> In i l -> fold_right Rplus 0 (map (delta i) l) = 1.
Proof.
  assert (Z : forall l, ~ In i l -> fold_right Rplus 0 (map (delta i) l) = 0).
  { clear. induction l as [|j l IH]; intros N; cbn [map fold_right]; auto. rewrite delta_diff by (intros ->; apply N; simpl; auto).
    rewrite IH by (intros Q; apply N; simpl; auto). ring. }
  induction 1 as [|j l Nj ND IH]; intros [].
  - subst. cbn [map fold_right]. rewrite delta_same, Z by auto. ring.
  - cbn [map fold_right]. rewrite IH by auto. rewrite delta_diff by (intros ->; auto). ring.
Qed.
Lemma effective_independent rows : effective_number rows independent (INR (length (valid rows))).
Proof.
  unfold effective_number. rewrite valid_positions_good by (unfold col_x, col_y; now rewrite !map_length). rewrite good_rows.
  pose proof (argwhere_NoDup has rows) as ND. rewrite <- valid_length. set (pos := argwhere has rows) in *. exists delta. split; [reflexivity|].
  split.
  - intros i Hi. rewrite delta_sum by auto. lra.
  - assert (G : forall l, (forall i, In i l -> In i pos) ->
       INR (length l) = fold_right Rplus 0 (map (fun i => 1 / fold_right Rplus 0 (map (delta i) pos)) l)).
    { induction l as [|i l IH]; intros H; [reflexivity|]. cbn [length map fold_right]. rewrite S_INR, IH by (intros; apply H; simpl; auto).
      rewrite delta_sum by (auto; apply H; simpl; auto). field. }
    apply G. auto.
Qed.

Ltac sorted_tac := repeat (apply SSorted_cons || apply SSorted_nil || constructor); try lra.
Lemma ascending_dec l : StronglySorted Rle l -> ascending l.
Proof. apply ascending_sorted. Qed.

(* ---- two samples in the first profile ---- *)
Definition rowsA : list row := [(0, Some (1, 1)); (0, Some (3, 1)); (1, Some (2, 1))].
Definition xsA : list R := [0; 0; 1].
Definition usA : list R := [0; 1].
Lemma usableA : usable rowsA.
Proof. split; [discriminate|]. cbn. intros e. intuition lra. Qed.
Lemma sortedA : sorted_positions rowsA xsA.
Proof. split; [|reflexivity]. apply ascending_sorted. unfold xsA. repeat constructor; lra. Qed.
Lemma distinctA : distinct_of (map fst rowsA) usA.
Proof. split; [unfold usA; repeat constructor; lra|]. cbn. tauto. Qed.
Lemma distinctA' : distinct_of xsA usA.
Proof. exact distinctA. Qed.
Lemma fitA : exists f, run (col_x rowsA) (col_y rowsA) (col_e rowsA) independent (upto (-1)) tt = (Ok (Fitted f), tt)
  /\ offset_result rowsA usA 3 f.
Proof.
  replace 3 with (INR (length (valid rowsA))) by (cbn; lra).
  apply choice_constant; auto using exact_inv_ok, usableA, distinctA, effective_independent, upto_named. lia.
Qed.
Lemma beforeA : before xsA 0 = 0%nat.
Proof. unfold before, xsA. cbn [filter]. destruct (Rlt_dec 0 0); [lra|]. destruct (Rlt_dec 1 0); [lra|]. reflexivity. Qed.
Lemma windowA : window xsA 0 = [0%nat].
Proof.
  destruct (window_seq xsA usA 0 (proj1 sortedA) distinctA' ltac:(cbn; lia)) as (_ & _ & E). cbn [nth usA] in E.
  rewrite E, beforeA. reflexivity.
Qed.
Lemma ownA : own_samples xsA 0 = [0%nat; 1%nat].
Proof.
  unfold own_samples, xsA. cbn [length seq filter nth]. destruct (Req_EM_T 0 0); [|lra]. destruct (Req_EM_T 1 0); [lra|]. reflexivity.
Qed.
Lemma station_refuted : exists f, run (col_x rowsA) (col_y rowsA) (col_e rowsA) independent (upto (-1)) tt = (Ok (Fitted f), tt) /\
  nth 0 (f_sta_mean f) NaN = Fin 1 /\ station_mean rowsA (own_samples xsA 0) = 2.
Proof.
  destruct fitA as (f & E & _). exists f. split; auto.
  destruct (station_values rowsA independent xsA usA usA usableA sortedA distinctA distinctA' _ _ _ _ _ _ _ _ _ _ E) as (_ & M & _).
  rewrite M. unfold at_positions, usA. cbn [map nth]. destruct (in_dec Req_EM_T 0 xsA) as [_|N]; [|exfalso; apply N; simpl; auto].
  rewrite windowA, ownA. unfold station_mean, idx_sum, rowsA. cbn [map fold_right values errors valid nth fst snd].
  split; [f_equal|]; field.
Qed.

(* ---- two profiles in the other order ---- *)
Definition rowsB : list row := [(0, Some (1, 1)); (1, Some (2, 1))].
Definition rowsB' : list row := [(1, Some (2, 1)); (0, Some (1, 1))].
Lemma order_refuted : exists f f', Permutation rowsB rowsB' /\
  run (col_x rowsB) (col_y rowsB) (col_e rowsB) independent (upto (-1)) tt = (Ok (Fitted f), tt) /\
  run (col_x rowsB') (col_y rowsB') (col_e rowsB') independent (upto (-1)) tt = (Ok (Fitted f'), tt) /\
  f_sta_mean f = [Fin 1; Fin 2] /\ f_sta_mean f' = [Fin 2; Fin 1].
Proof.
  assert (U : usable rowsB) by (split; [discriminate|]; cbn; intros e; intuition lra).
  assert (U' : usable rowsB') by (split; [discriminate|]; cbn; intros e; intuition lra).
  assert (S : sorted_positions rowsB [0; 1]).
  { split; [|reflexivity]. apply ascending_sorted. repeat constructor; lra. }
  assert (S' : sorted_positions rowsB' [0; 1]).
  { split; [|apply perm_swap]. apply ascending_sorted. repeat constructor; lra. }
  assert (D : distinct_of (map fst rowsB) [0; 1]) by (split; [repeat constructor; lra|]; cbn; tauto).
  assert (D' : distinct_of (map fst rowsB') [0; 1]) by (split; [repeat constructor; lra|]; cbn; tauto).
  assert (V : distinct_of [0; 1] [0; 1]) by (split; [repeat constructor; lra|]; tauto).
  assert (W : window [0; 1] 0 = [0%nat] /\ window [0; 1] 1 = [1%nat]).
  { assert (A : ascending [0; 1]) by apply S. assert (ND : NoDup [0; 1]) by (repeat constructor; simpl; lra).
    rewrite !window_single by (auto; simpl; auto). unfold own_samples. cbn [length seq filter nth].
    destruct (Req_EM_T 0 0); [|lra]. destruct (Req_EM_T 1 0); [lra|]. destruct (Req_EM_T 0 1); [lra|]. destruct (Req_EM_T 1 1); [|lra]. auto. }
  destruct W as [W0 W1].
  destruct (choice_constant exact_det exact_solve exact_inv no_optimum unit no_noise rowsB independent [0; 1] (INR (length (valid rowsB))) (VStr "Max_No_Breaks") (-1) tt) as (f & E & _);
    auto using exact_inv_ok, effective_independent, upto_named; [lia|].
  destruct (choice_constant exact_det exact_solve exact_inv no_optimum unit no_noise rowsB' independent [0; 1] (INR (length (valid rowsB'))) (VStr "Max_No_Breaks") (-1) tt) as (f' & E' & _);
    auto using exact_inv_ok, effective_independent, upto_named; [lia|].
  exists f, f'. split; [apply perm_swap|]. split; [exact E|]. split; [exact E'|].
  destruct (station_values rowsB independent [0; 1] [0; 1] [0; 1] U S D V _ _ _ _ _ _ _ _ _ _ E) as (_ & M & _).
  destruct (station_values rowsB' independent [0; 1] [0; 1] [0; 1] U' S' D' V _ _ _ _ _ _ _ _ _ _ E') as (_ & M' & _).
  rewrite M, M'. unfold at_positions. cbn [map].
  destruct (in_dec Req_EM_T 0 [0; 1]) as [_|N]; [|exfalso; apply N; simpl; auto].
  destruct (in_dec Req_EM_T 1 [0; 1]) as [_|N]; [|exfalso; apply N; simpl; auto].
  rewrite W0, W1. unfold station_mean, idx_sum, rowsB, rowsB'. cbn [map fold_right values errors valid nth fst snd].
  split; repeat f_equal; field.
Qed.

(* ---- a first profile without valid samples shifts the line ---- *)
Definition rowsC : list row := [(0, None); (1, Some (1, 1)); (2, Some (2, 1)); (3, Some (3, 1)); (4, Some (4, 1)); (5, Some (5, 1))].
Lemma shift_refuted : exists f, run (col_x rowsC) (col_y rowsC) (col_e rowsC) independent (upto 0) tt = (Ok (Fitted f), tt) /\
  best_line rowsC [1; 2; 3; 4; 5] 1 1 /\ line_ss rowsC [1; 2; 3; 4; 5] 1 1 = 0 /\
  f_condslope f = map Fin [1; 2; 3; 4; 5; 6].
Proof.
  assert (U : usable rowsC) by (split; [discriminate|]; cbn; intros e; intuition lra).
  assert (S : sorted_positions rowsC [1; 2; 3; 4; 5]).
  { split; [|reflexivity]. apply ascending_sorted. repeat constructor; lra. }
  assert (D : distinct_of (map fst rowsC) [0; 1; 2; 3; 4; 5]) by (split; [repeat constructor; lra|]; cbn; tauto).
  assert (Ev : effective_number rowsC independent 5).
  { replace 5 with (INR (length (valid rowsC))) by (cbn; lra). apply effective_independent. }
  destruct (choice_line exact_det exact_solve exact_inv no_optimum unit no_noise rowsC independent [1; 2; 3; 4; 5] [0; 1; 2; 3; 4; 5] 5 (VStr "Max_No_Breaks") 0)
    as (c & s & B & R1 & R2); auto using exact_det_ok, exact_solve_ok, exact_inv_ok, no_noise_ok, upto_named; try lia; try lra.
  { exists 1, 2. cbn. repeat split; auto. lra. }
  assert (Z : line_ss rowsC [1; 2; 3; 4; 5] 1 1 = 0).
  { unfold line_ss, bsum, rowsC. cbn. field. }
  assert (Z2 : 0 < flat_ss rowsC (weighted_mean rowsC)).
  { unfold flat_ss, weighted_mean, bsum, rowsC. cbn. lra. }
  assert (Q : c = 1 /\ s = 1 /\ line_ss rowsC [1; 2; 3; 4; 5] c s = 0).
  { destruct (B 1 1) as [B1 B2]. rewrite Z in B1, B2.
    assert (P : 0 <= line_ss rowsC [1; 2; 3; 4; 5] c s) by apply line_ss_nonneg.
    assert (E : line_ss rowsC [1; 2; 3; 4; 5] c s = 0) by lra. rewrite E in B2. destruct (B2 eq_refl). auto. }
  destruct Q as (-> & -> & _).
  destruct (R2 ltac:(auto) tt) as (f & g & E). destruct g. exists f. split; [exact E|]. split; auto. split; auto.
  destruct (R1 tt f tt E) as [[_ L]|[N _]].
  - destruct L as (_ & _ & _ & _ & L & _). rewrite L. cbn [map hd]. repeat f_equal; ring.
  - exfalso. apply N. split; auto.
Qed.
