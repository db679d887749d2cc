(* Proofs for fit_cond: arguments, sample size, order of the positions *)
From Coq Require Import String ZArith List Bool Reals Lra Lia Sorted Permutation.
From Verif Require Import Num Np NumFacts NpFacts Utilities Finders Stats FitCond Spec_Utilities Spec_Finders Spec_Stats
  Spec_FitCond LinR LeastSq Proofs_Utilities Proofs_Besthist Proofs_Fit Proofs_FC1.
Import ListNotations.
Local Open Scope list_scope.

Lemma ok_inj {A} (a b : A) : Ok a = Ok b -> a = b.
Proof. now injection 1. Qed.

Section Args.
  Context {T : Type} `{Num T} `{NumT T}.
  Variable p : @prep T.

  Lemma str_cases s k : In k option_names -> str_lower s = k ->
    (String.eqb (str_lower s) "initial_breaks" = true /\ k = "initial_breaks"%string) \/
    (String.eqb (str_lower s) "initial_breaks" = false /\ String.eqb (str_lower s) "max_no_breaks" = true /\ k = "max_no_breaks"%string) \/
    (String.eqb (str_lower s) "initial_breaks" = false /\ String.eqb (str_lower s) "max_no_breaks" = false /\
      String.eqb (str_lower s) "number_breaks" = true /\ k = "number_breaks"%string) \/
    (String.eqb (str_lower s) "initial_breaks" = false /\ String.eqb (str_lower s) "max_no_breaks" = false /\
      String.eqb (str_lower s) "number_breaks" = false /\ String.eqb (str_lower s) "nloops" = true /\ k = "nloops"%string) \/
    (String.eqb (str_lower s) "initial_breaks" = false /\ String.eqb (str_lower s) "max_no_breaks" = false /\
      String.eqb (str_lower s) "number_breaks" = false /\ String.eqb (str_lower s) "nloops" = false /\
      String.eqb (str_lower s) "breaks" = true /\ k = "breaks"%string).
  Proof. intros Hk ->. simpl in Hk. destruct Hk as [<-|[<-|[<-|[<-|[<-|[]]]]]]; cbn; intuition. Qed.

  Lemma parse_ok o a v : well_formed (a, v) ->
    exists o', parse_option p o a v = Ok o' /\ (~ sets_max (a, v) -> o_max o' = o_max o).
  Proof.
    intros (k & Hk & (s & Ea & Es) & (A1 & A2 & A3)). cbn [fst snd] in *. subst a. unfold parse_option.
    destruct (str_cases s k Hk Es) as [(E1 & Q)|[(E1 & E2 & Q)|[(E1 & E2 & E3 & Q)|[(E1 & E2 & E3 & E4 & Q)|(E1 & E2 & E3 & E4 & E5 & Q)]]]].
    - rewrite E1. specialize (A1 Q). destruct v; [destruct A1| | |]; eexists; split; try reflexivity; reflexivity.
    - rewrite E1, E2. eexists. split; [reflexivity|]. intros N. exfalso. apply N. left. exists s. cbn. rewrite Es. auto.
    - rewrite E1, E2, E3. destruct (A2 Q) as (z & ->). eexists. split; [reflexivity|].
      intros N. exfalso. apply N. right. exists s. cbn. rewrite Es. auto.
    - rewrite E1, E2, E3, E4. eexists. split; reflexivity.
    - rewrite E1, E2, E3, E4, E5. destruct (A3 Q) as [->|(l & ->)]; [eexists; split; reflexivity|].
      destruct l; eexists; split; reflexivity.
  Qed.

  Lemma parse_bad_name o a v : ~ known a -> parse_option p o a v = Raise ValueError.
  Proof.
    intros N. unfold parse_option. destruct a as [s| | |]; auto.
    assert (K : forall k, In k option_names -> String.eqb (str_lower s) k = false).
    { intros k Hk. apply String.eqb_neq. intros E. apply N. exists k. split; auto. exists s. auto. }
    rewrite !K by (simpl; tauto). reflexivity.
  Qed.

  Lemma flat_length (ps : list (pyval T * pyval T)) : length (flat ps) = (2 * length ps)%nat.
  Proof. induction ps as [|q ps IH]; [reflexivity|]. unfold flat in *. cbn [flat_map app length]. rewrite IH. lia. Qed.
  Lemma flat_even (ps : list (pyval T * pyval T)) : Nat.odd (length (flat ps)) = false.
  Proof. rewrite flat_length, Nat.odd_mul. reflexivity. Qed.

  Lemma parse_flat ps rest : Forall well_formed ps -> forall o,
    exists o', parse_pairs p o (flat ps ++ rest) = parse_pairs p o' rest /\
      ((forall q, In q ps -> ~ sets_max q) -> o_max o' = o_max o).
  Proof.
    induction ps as [|q ps IH]; intros F o; [exists o; split; auto|]. inversion F as [|? ? Q F']. subst.
    destruct q as [a v]. destruct (parse_ok o a v Q) as (o1 & E1 & M1).
    destruct (IH F' o1) as (o2 & E2 & M2). exists o2. split.
    - change (flat ((a, v) :: ps) ++ rest) with (a :: v :: (flat ps ++ rest)). cbn [parse_pairs]. rewrite E1. cbn [bind]. exact E2.
    - intros N. rewrite M2 by (intros; apply N; simpl; auto). apply M1. apply N. simpl. auto.
  Qed.
End Args.

Section Calls.
  Context {T : Type} `{Num T} `{NumT T}.
  Notation mat := (nat -> nat -> T).
  Variable det : nat -> mat -> T.
  Variable solve : nat -> nat -> mat -> mat -> res mat.
  Variable inv : nat -> mat -> res mat.
  Variable least_squares : (list T -> res (list T)) -> list T -> res (list (list T) * list T).
  Variable rng : Type.
  Variable randn : nat -> rng -> list T * rng.
  Notation call := (fit_cond det solve inv least_squares rng randn).

  Lemma no_data x y e lv args g : good_points x y = [] -> call x y e lv args g = (Ok (NoData (np_unique x)), g).
  Proof. intros E. unfold fit_cond. now rewrite E. Qed.

  Lemma args_odd x y e lv args g : good_points x y <> [] -> Nat.odd (length args) = true ->
    call x y e lv args g = (Raise ValueError, g).
  Proof.
    intros N O. unfold fit_cond. destruct (good_points x y) eqn:E; [congruence|]. clear E.
    cbv zeta. unfold parse_args. rewrite O. reflexivity.
  Qed.
  Lemma args_bad x y e lv ps a v rest g : good_points x y <> [] -> Nat.odd (length rest) = false ->
    Forall well_formed ps -> ~ known a ->
    call x y e lv (flat ps ++ a :: v :: rest) g = (Raise ValueError, g).
  Proof.
    intros N O F K. unfold fit_cond. destruct (good_points x y) eqn:E; [congruence|]. clear E.
    cbv zeta. unfold parse_args.
    assert (O' : Nat.odd (length (flat ps ++ a :: v :: rest)) = false).
    { rewrite app_length, flat_length. cbn [length]. rewrite <- Nat.negb_even. rewrite <- Nat.negb_even in O.
      apply negb_false_iff. apply negb_false_iff in O. apply Nat.even_spec in O as (k & Ek). apply Nat.even_spec. exists (length ps + k + 1)%nat. lia. }
    rewrite O'. destruct (parse_flat (prepare x y e lv) ps (a :: v :: rest) F default_opts) as (o' & E & _).
    rewrite E. cbn [parse_pairs]. rewrite parse_bad_name by auto. reflexivity.
  Qed.
  Lemma args_no_max x y e lv ps g : good_points x y <> [] ->
    Forall well_formed ps -> (forall q, In q ps -> ~ sets_max q) ->
    call x y e lv (flat ps) g = (Raise TypeError, g).
  Proof.
    intros N F M. unfold fit_cond. destruct (good_points x y) eqn:E; [congruence|]. clear E.
    cbv zeta. unfold parse_args. rewrite flat_even.
    destruct (parse_flat (prepare x y e lv) ps [] F default_opts) as (o' & E & Em).
    rewrite app_nil_r in E. rewrite E. cbn [parse_pairs bind]. rewrite Em by auto. reflexivity.
  Qed.

  Lemma evaluate_ndf p o nbr1 t best g f g' :
    evaluate det solve inv least_squares rng randn p o nbr1 t best g = (Ok f, g') -> f_ndf f = ndf p.
  Proof.
    unfold evaluate. destruct (param_var _ _ _ _) as [[p1 p2]|]; [|discriminate].
    match goal with |- context [let '(err, g') := ?X in _] => destruct X as [[err|] g''] end; [|discriminate].
    intros E. apply (f_equal fst) in E. cbn [fst] in E.
    apply ok_inj in E. rewrite <- E. reflexivity.
  Qed.
  Lemma fit_ndf x y e lv args g f g' : call x y e lv args g = (Ok (Fitted f), g') ->
    let pos := good_points x y in
    f_ndf f = eff_dof (length pos) (fun i j => lv (nth i pos 0%nat) (nth j pos 0%nat)).
  Proof.
    unfold fit_cond. destruct (good_points x y) as [|a r] eqn:E; [discriminate|]. rewrite <- E. cbv zeta.
    match goal with |- context [match ?X with Ok _ => _ | Raise _ => _ end] =>
      destruct X as [[[[o nbr1] t2] best]|]; [|discriminate] end.
    destruct (evaluate _ _ _ _ _ _ _ _ _ _ _ _) as [[f0|] g0] eqn:Ev; [|discriminate].
    intros Q. assert (f0 = f) by congruence. subst f0. apply evaluate_ndf in Ev. rewrite Ev.
    unfold prepare, take. cbn [ndf]. now rewrite map_length.
  Qed.
End Calls.
