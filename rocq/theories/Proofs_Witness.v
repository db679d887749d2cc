(* Concrete cases meeting the hypotheses of C34, C37, C38, C43, C44, C76 and C80 *)
From Coq Require Import String ZArith List Bool Reals Lra Lia Permutation Sorted.
From Verif Require Import Num Np NumFacts Finders Stats FitCond Spec_Utilities Spec_Finders Spec_Stats Spec_FitCond LinR LeastSq
  Proofs_Utilities Proofs_Fit Proofs_Curve Proofs_FC1 Proofs_FC2 Proofs_FC7 Proofs_FC9 Proofs_FC10 Proofs_FC11 Proofs_FC12.
Import ListNotations.
Local Open Scope R_scope.
Local Open Scope list_scope.

(* ---- C34: two profiles of 20 degrees, the second without value on its second level ---- *)
Definition iso_coords : list (coord R) := [mkCoord 30 20 3000; mkCoord 30 21 3500].
Definition iso_temps (i p : nat) : option R := match i, p with 1%nat, 1%nat => None | _, _ => Some 20 end.
Definition iso_scales : hscales := mkHScales 4 8 (1/10) true.
Lemma iso_planetary c : In c iso_coords -> planetary c <> 0.
Proof.
  assert (S : sin (30 * PI / 180) = 1 / 2) by (replace (30 * PI / 180) with (PI / 6) by field; apply sin_PI6).
  intros [<-|[<-|[]]]; unfold planetary; cbn [c_0 c_2]; rewrite S; lra.
Qed.
Lemma iso_case : length iso_coords = 2%nat /\ table_needed 2 2 iso_temps /\ hscales_ok iso_scales iso_coords /\
  (forall p, (p < 2)%nat -> isothermal 2 (fun i => iso_temps i p)) /\
  (h_pv iso_scales = true -> forall c, In c iso_coords -> planetary c <> 0).
Proof.
  split; [reflexivity|]. split.
  { intros _ i p _ _. unfold iso_temps. destruct i as [|[|i]], p as [|[|p]]; cbn; auto; lra. }
  split.
  { unfold hscales_ok. cbn. repeat split; try lra. intros c [<-|[<-|[]]]; cbn; lra. }
  split; [|intros _; exact iso_planetary].
  intros p _ i j x y _ _. unfold iso_temps. destruct i as [|[|i]], j as [|[|j]], p as [|[|p]]; intros A B; try discriminate A; try discriminate B;
    injection A as <-; injection B as <-; reflexivity.
Qed.

(* ---- C37: 5 at position 0, slope 2 up to the break at 1, slope -1 after it ---- *)
Lemma exact_case : ascending [0; 1; 2] /\ ascending [0; 1] /\ determined [0; 1] [0; 1; 2] None /\
  forall i, (i < 3)%nat -> nth i [5; 7; 6] 0 = curve [0; 1] [5; 2; -1] (nth i [0; 1; 2] 0).
Proof.
  split; [apply ascending_sorted; sorted_tac|]. split; [apply ascending_sorted; sorted_tac|]. split; [exact determined_example|].
  intros [|[|[|i]]] Hi; [| | |lia]; unfold curve, basis, bsum; cbn [length seq map nth Nat.ltb Nat.leb fold_right];
    cbn; unfold Rmax, Rmin; repeat destruct (Rle_dec _ _); lra.
Qed.
Lemma line_case : piecewise_linear [0; 1] (curve [0; 1] [5; 2; -1]) (fun k => nth (S k) [5; 2; -1] 0).
Proof. apply curve_piecewise. apply ascending_sorted; sorted_tac. Qed.

(* ---- C38: the second slope cannot be determined if no sample comes after the break ---- *)
Lemma singular_case : ascending [0; 1; 2] /\ ascending [0; 5] /\ ~ determined [0; 5] [0; 1; 2] None.
Proof.
  split; [apply ascending_sorted; sorted_tac|]. split; [apply ascending_sorted; sorted_tac|]. intros D.
  assert (B : forall i, (i < 3)%nat -> basis [0; 5] 2 (nth i [0; 1; 2] 0) = 0).
  { intros [|[|[|i]]] Hi; [| | |lia]; unfold basis; cbn; unfold Rmax; destruct (Rle_dec _ _); lra. }
  specialize (D (fun c => if Nat.eqb c 2 then 1 else 0)). cbn [length] in D.
  assert (1 = 0); [|lra]. refine (D _ 2%nat ltac:(lia)).
  clear D. intros a Ha. unfold mv.
  assert (E : normal_matrix [0; 5] [0; 1; 2] None a 2%nat = 0).
  { unfold normal_matrix. change (length [0; 1; 2]) with 3%nat. transitivity (bsum 3 (fun _ => 0)).
    - apply bsum_ext. intros j Hj. rewrite (B j Hj). ring.
    - unfold bsum. cbn. ring. }
  unfold bsum. cbn [seq map rsum fold_right Nat.eqb]. rewrite E. unfold rsum. cbn [fold_right]. ring.
Qed.

(* ---- C44: the positions of two samples exchanged ---- *)
Definition rowsD : list row := [(0, Some (1, 1)); (1, Some (2, 1))].
Definition rowsD' : list row := [(1, Some (1, 1)); (0, Some (2, 1))].
Lemma swapped_positions : map snd rowsD = map snd rowsD' /\
  Permutation (map fst (valid rowsD)) (map fst (valid rowsD')) /\
  (forall x, In x (map fst rowsD) <-> In x (map fst rowsD')) /\ rowsD <> rowsD'.
Proof.
  split; [reflexivity|]. split; [apply perm_swap|]. split; [intros x; cbn; tauto|].
  unfold rowsD, rowsD'. intros E. injection E as E _. lra.
Qed.

(* ---- C76: the initial breaks do not matter for the constant fit ---- *)
Definition with_initial : list (pyval XR * pyval XR) :=
  [(VStr "Initial_Breaks"%string, VInt 3); (VStr "Max_No_Breaks"%string, VInt (-1))].
Lemma without_initial : flat (filter not_init with_initial) = upto (-1).
Proof. reflexivity. Qed.
Lemma candidates_constant (p : prep (T := XR)) o : candidates p o (-1) (-1) = ([(-1)%Z], (-1)%Z, (-1)%Z) \/ o_set o = true.
Proof.
  unfold candidates. destruct (o_set o); auto. left.
  set (a := ndf p). set (b := nofZ _). clearbody a b.
  destruct (nltb a b) eqn:A; [|reflexivity]. destruct (nltb b a) eqn:B; [|reflexivity]. exfalso.
  destruct a as [a| | |], b as [b| | |]; try discriminate A; try discriminate B.
  cbn in A, B. unfold Rltb in A, B. destruct (Rlt_dec a b); [|congruence]. destruct (Rlt_dec b a); [|congruence]. lra.
Qed.
Section Initial.
  Variable det : nat -> (nat -> nat -> XR) -> XR.
  Variable solve : nat -> nat -> (nat -> nat -> XR) -> (nat -> nat -> XR) -> res (nat -> nat -> XR).
  Variable inv : nat -> (nat -> nat -> XR) -> res (nat -> nat -> XR).
  Variable least_squares : (list XR -> res (list XR)) -> list XR -> res (list (list XR) * list XR).
  Variable rng : Type.
  Variable randn : nat -> rng -> list XR * rng.
  Lemma initial_constant x y e lv z g :
    fit_cond det solve inv least_squares rng randn x y e lv [VStr "Initial_Breaks"; VInt z; VStr "Max_No_Breaks"; VInt (-1)] g
    = fit_cond det solve inv least_squares rng randn x y e lv [VStr "Max_No_Breaks"; VInt (-1)] g.
  Proof.
    unfold fit_cond. destruct (good_points x y); [reflexivity|]. cbv zeta. set (p := prepare x y e lv).
    destruct (parse_args p [VStr "Initial_Breaks"; VInt z; VStr "Max_No_Breaks"; VInt (-1)]) as [o|] eqn:E; [|discriminate E].
    apply ok_inj in E. destruct (parse_args p [VStr "Max_No_Breaks"; VInt (-1)]) as [o'|] eqn:E'; [|discriminate E'].
    apply ok_inj in E'. cbn [bind].
    assert (o_max o = VInt (-1) /\ o_set o = false /\ o_nbr1 o = (-1)%Z /\ o = mkOpts (o_init o) (o_max o') (o_nbr1 o') (o_nloops o') (o_breaks o') (o_set o'))
      as (M & S & N & Eo) by (subst o o'; repeat split).
    assert (o_max o' = VInt (-1) /\ o_set o' = false /\ o_nbr1 o' = (-1)%Z) as (M' & S' & N') by (subst o'; repeat split).
    clear E E'. rewrite M, M'. cbn [py_int_of bind]. destruct (dims_of (-1)) as [d|]; [|reflexivity]. cbn [bind]. unfold setup. rewrite S, S', N, N'. cbn [bind].
    destruct (candidates_constant p o) as [->|]; [|congruence]. destruct (candidates_constant p o') as [->|]; [|congruence].
    assert (o_breaks o = o_breaks o') as -> by (now rewrite Eo).
    cbn [score_all]. unfold score. cbn [Z.eqb Pos.eqb].
    destruct (bind (inv _ _) _) as [t|]; [|reflexivity]. cbn [bind].
    assert (choose o d [(-1)%Z] (-1) (-1) t = choose o' d [(-1)%Z] (-1) (-1) t) as -> by (unfold choose; now rewrite S, S').
    destruct (choose o' d _ _ _ t) as [best|]; [|reflexivity]. cbn [bind]. rewrite Eo.
    rewrite <- (evaluate_clear det solve inv least_squares rng randn _ (mkOpts _ _ _ _ _ _)).
    rewrite <- (evaluate_clear det solve inv least_squares rng randn _ o'). reflexivity.
  Qed.
End Initial.
Lemma initial_case : exists f,
  run (col_x rowsA) (col_y rowsA) (col_e rowsA) independent (flat with_initial) tt = (Ok (Fitted f), tt).
Proof.
  destruct fitA as (f & E & _). exists f. rewrite <- E.
  exact (initial_constant exact_det exact_solve exact_inv no_optimum unit no_noise _ _ _ _ 3 tt).
Qed.
Lemma no_points : good_points (T := XR) [Fin 0; NaN] [NaN; Fin 35] = [].
Proof. reflexivity. Qed.
