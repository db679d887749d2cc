(* Proofs for fit_cond: candidates, their comparison, and the option initial_breaks *)
From Coq Require Import String ZArith List Bool Reals Lra Lia Sorted Permutation.
From Verif Require Import Num Np NumFacts NpFacts Utilities Finders Stats FitCond Spec_Utilities Spec_Finders Spec_Stats
  Spec_FitCond Proofs_FC2 Proofs_FC6 Proofs_FC7.
Import ListNotations.
Local Open Scope R_scope.
Local Open Scope list_scope.

(* ---- argmin over extended reals without nan ---- *)
Lemma xltb_irrefl (a b : XR) : nisnan a = false -> nisnan b = false -> nltb a b = false -> nltb b a = true \/ a = b.
Proof.
  destruct a, b; cbn [nisnan nltb XR_Num xltb]; try discriminate; auto. intros _ _ E. rb.
  destruct (Req_EM_T r r0) as [->|N]; auto. left. rb. lra.
Qed.
Lemma xltb_self (a : XR) : nltb a a = false.
Proof. destruct a; cbn [nltb XR_Num xltb]; auto. destruct (Rltb r r) eqn:Q; auto. rb. lra. Qed.
Lemma xltb_trans (a b c : XR) : nltb a b = true -> nltb b c = true -> nltb a c = true.
Proof. destruct a, b, c; cbn [nltb XR_Num xltb]; try discriminate; auto. intros. rb. lra. Qed.
Lemma argmin_from_min (pre l : list XR) : forall best, (best < length pre)%nat -> (forall x, In x (pre ++ l) -> nisnan x = false) ->
  (forall x, In x pre -> nltb x (nth best pre NaN) = false) ->
  forall x, In x (pre ++ l) -> nltb x (nth (argmin_from (length pre) best (nth best pre NaN) l) (pre ++ l) NaN) = false.
Proof.
  revert pre. induction l as [|a l IH]; intros pre best Hb Hn Hm x Hx; cbn [argmin_from].
  - rewrite app_nil_r in *. now apply Hm.
  - rewrite Hn by (apply in_app_iff; left; now apply nth_In).
    assert (Na : nisnan a = false) by (apply Hn, in_app_iff; right; simpl; auto). rewrite Na. cbn [orb].
    replace (pre ++ a :: l) with ((pre ++ [a]) ++ l) in * by (rewrite <- app_assoc; reflexivity).
    replace (S (length pre)) with (length (pre ++ [a])) by (rewrite app_length; cbn; lia).
    destruct (nltb a (nth best pre NaN)) eqn:L.
    + replace (argmin_from (length (pre ++ [a])) (length pre) a l) with (argmin_from (length (pre ++ [a])) (length pre) (nth (length pre) (pre ++ [a]) NaN) l)
        by (rewrite app_nth2, Nat.sub_diag by lia; reflexivity).
      apply IH; auto; [rewrite app_length; cbn; lia|]. intros z Hz. rewrite app_nth2, Nat.sub_diag by lia. cbn [nth].
      apply in_app_iff in Hz as [Hz|[<-|[]]].
      * destruct (nltb z a) eqn:Q; auto. exfalso. pose proof (xltb_trans _ _ _ Q L). rewrite Hm in H by auto. discriminate.
      * apply xltb_self.
    + replace (nth best pre NaN) with (nth best (pre ++ [a]) NaN) by (rewrite app_nth1; auto).
      apply IH; auto; [rewrite app_length; lia|]. intros z Hz. rewrite app_nth1 by auto.
      apply in_app_iff in Hz as [Hz|[<-|[]]]; auto.
Qed.
Lemma argmin_min (l : list XR) : (forall x, In x l -> nisnan x = false) -> forall x, In x l -> nltb x (nth (argmin l) l NaN) = false.
Proof.
  destruct l as [|a l]; [contradiction|]. intros Hn x Hx. unfold argmin.
  apply (argmin_from_min [a] l 0); auto. intros z [<-|[]]. apply xltb_self.
Qed.

(* the chosen model has the least criterion of those scored *)
Lemma choose_least (o : @opts XR) d pbrk mx t best : o_set o = false ->
  choose o d pbrk (-1) mx t = Ok best -> (forall k, In k pbrk -> (-1 <= k)%Z) ->
  (forall k, In k pbrk -> nisnan (aic t (Z.to_nat (k + 1))) = false) ->
  exists k, In k pbrk /\ best = Z.to_nat (k + 2) /\
    forall k', In k' pbrk -> nltb (aic t (Z.to_nat (k' + 1))) (aic t (Z.to_nat (k + 1))) = false.
Proof.
  intros Ho. unfold choose. rewrite Ho. cbn [andb]. change (Z.ltb 1 (-1)) with false. cbv iota zeta.
  destruct pbrk as [|k0 r]; [discriminate|]. set (pb := k0 :: r). set (good := map (fun k => Z.to_nat (k + 1)) pb).
  change (match good with [] => Raise ValueError | _ :: _ => if existsb (Nat.leb (dr d)) good then Raise IndexError else Ok (nth (argmin (map (aic t) good)) good 0%nat + 1)%nat end)
    with (if existsb (Nat.leb (dr d)) good then @Raise nat IndexError else Ok (nth (argmin (map (aic t) good)) good 0%nat + 1)%nat).
  destruct (existsb _ _); [discriminate|]. intros E Hk Hn. apply ok_inj in E.
  assert (La : (argmin (map (aic t) good) < length pb)%nat).
  { pose proof (argmin_lt (map (aic t) good) ltac:(discriminate)) as L. unfold good in *. now rewrite !map_length in L. }
  set (i := argmin (map (aic t) good)) in *.
  assert (Ng : nth i good 0%nat = Z.to_nat (nth i pb 0%Z + 1)).
  { unfold good. rewrite (nth_indep _ _ (Z.to_nat (0 + 1))) by (rewrite map_length; auto). apply (map_nth (fun k => Z.to_nat (k + 1))). }
  exists (nth i pb 0%Z). assert (I : In (nth i pb 0%Z) pb) by now apply nth_In. split; auto. split.
  { rewrite Ng in E. specialize (Hk _ I). lia. }
  intros k' Hk'. rewrite <- Ng.
  assert (M : nltb (aic t (Z.to_nat (k' + 1))) (nth i (map (aic t) good) NaN) = false).
  { apply argmin_min.
    - intros x Hx. apply in_map_iff in Hx as (j & <- & Hj). apply in_map_iff in Hj as (k & <- & Hkk). now apply Hn.
    - apply in_map. apply (in_map (fun k => Z.to_nat (k + 1))). auto. }
  rewrite (nth_indep _ _ (aic t 0%nat)) in M by (unfold good; rewrite !map_length; auto).
  rewrite map_nth in M. exact M.
Qed.

Lemma most_breaks_unique v mx K K' : most_breaks v mx K -> most_breaks v mx K' -> K = K'.
Proof.
  intros (B & D & M) (B' & D' & M').
  assert (K <= K')%Z. { destruct D as [->|D]; [lia|]. destruct (Z.eq_dec K (-1)); [lia|]. apply M'; auto. lia. }
  assert (K' <= K)%Z. { destruct D' as [->|D']; [lia|]. destruct (Z.eq_dec K' (-1)); [lia|]. apply M; auto. lia. }
  lia.
Qed.
(* the denominators of the criterion *)
Lemma candidate_denominators v mx K k : most_breaks v mx K -> (-1 <= k <= K)%Z ->
  K <> (-1)%Z -> 1 <= v - IZR (2 * (k + 1)) - 2.
Proof.
  intros (B & [D|D] & _) Hk N; [contradiction|]. rewrite plus_IZR, mult_IZR in D. rewrite mult_IZR, plus_IZR.
  assert (IZR k <= IZR K) by (apply IZR_le; lia). lra.
Qed.

(* ---- initial_breaks ---- *)
Section Init.
  Context {T : Type} `{Num T} `{NumT T}.
  Notation mat := (nat -> nat -> T).
  Variable det : nat -> mat -> T.
  Variable solve : nat -> nat -> mat -> mat -> res mat.
  Variable inv : nat -> mat -> res mat.
  Variable least_squares : (list T -> res (list T)) -> list T -> res (list (list T) * list T).
  Variable rng : Type.
  Variable randn : nat -> rng -> list T * rng.
  Notation call := (fit_cond det solve inv least_squares rng randn).
  Definition clear_init (o : @opts T) : @opts T := mkOpts [] (o_max o) (o_nbr1 o) (o_nloops o) (o_breaks o) (o_set o).

  Lemma parse_clear p ps : forall o o1, parse_pairs p o (flat ps) = Ok o1 ->
    parse_pairs p (clear_init o) (flat (filter not_init ps)) = Ok (clear_init o1).
  Proof.
    induction ps as [|[a w] ps IH]; intros o o1.
    - cbn [flat flat_map filter parse_pairs]. intros E. apply ok_inj in E. now subst.
    - change (flat ((a, w) :: ps)) with (a :: w :: flat ps). cbn [parse_pairs]. intros E. apply bind_ok in E as (o2 & E1 & E2).
      apply IH in E2. cbn [filter]. destruct a as [s| | |]; try discriminate E1.
      cbn [not_init fst]. cbn [parse_option] in E1. destruct (String.eqb (str_lower s) "initial_breaks") eqn:Q1; cbn [negb].
      + assert (clear_init o2 = clear_init o) as Eo by (destruct w; try discriminate E1; apply ok_inj in E1; subst o2; reflexivity).
        now rewrite <- Eo.
      + change (flat ((VStr s, w) :: filter not_init ps)) with (VStr s :: w :: flat (filter not_init ps)). cbn [parse_pairs parse_option].
        rewrite Q1. destruct (String.eqb (str_lower s) "max_no_breaks"); [apply ok_inj in E1; subst o2; cbn [bind]; exact E2|].
        destruct (String.eqb (str_lower s) "number_breaks"); [destruct w; try discriminate E1; apply ok_inj in E1; subst o2; cbn [bind]; exact E2|].
        destruct (String.eqb (str_lower s) "nloops"); [apply ok_inj in E1; subst o2; cbn [bind]; exact E2|].
        destruct (String.eqb (str_lower s) "breaks"); [|discriminate E1].
        destruct w as [[|c s2]| | |[|b l]]; try discriminate E1; apply ok_inj in E1; subst o2; cbn [bind]; exact E2.
  Qed.
  Lemma score_clear p o d nbr1 mb k t t' : score det solve inv least_squares p o d nbr1 mb k t = Ok t' ->
    score det solve inv least_squares p (clear_init o) d nbr1 mb k t = Ok t'.
  Proof.
    unfold score. destruct (Z.eqb_spec k (-1)); auto. destruct (Z.eqb_spec k 0); auto. cbn [o_init clear_init o_set length].
    destruct (Nat.leb_spec (Z.to_nat k) (length (o_init o))); [discriminate|].
    destruct (Nat.leb_spec (Z.to_nat k) 0); [lia|]. auto.
  Qed.
  Lemma score_all_clear p o d nbr1 mb ks : forall t t', score_all det solve inv least_squares p o d nbr1 mb ks t = Ok t' ->
    score_all det solve inv least_squares p (clear_init o) d nbr1 mb ks t = Ok t'.
  Proof.
    induction ks as [|k ks IH]; intros t t'; cbn [score_all]; auto. intros E. apply bind_ok in E as (t1 & E1 & E2).
    rewrite (score_clear _ _ _ _ _ _ _ _ E1). cbn [bind]. apply IH; auto.
  Qed.
  Lemma mc_loop_clear k p o nbr1 best breaks e : forall yfit err ug g,
    mc_loop det solve least_squares rng randn k p (clear_init o) nbr1 best breaks e yfit err ug g
    = mc_loop det solve least_squares rng randn k p o nbr1 best breaks e yfit err ug g.
  Proof.
    induction k as [|k IH]; intros; cbn [mc_loop]; auto. destruct (randn _ g) as [z g']. unfold mc_coefs. cbn [o_set clear_init].
    destruct (bind _ _) as [a|]; auto.
  Qed.
  Lemma evaluate_clear p o nbr1 t best g :
    evaluate det solve inv least_squares rng randn p (clear_init o) nbr1 t best g
    = evaluate det solve inv least_squares rng randn p o nbr1 t best g.
  Proof.
    unfold evaluate. destruct (param_var _ _ _ _) as [[p1 p2]|]; auto. cbn [o_nloops clear_init].
    destruct (Nat.eqb best 1); auto. destruct (o_nloops o); auto. now rewrite mc_loop_clear.
  Qed.
  Theorem initial_breaks_unused x y e lv ps g out g' : call x y e lv (flat ps) g = (Ok out, g') ->
    call x y e lv (flat (filter not_init ps)) g = (Ok out, g').
  Proof.
    unfold fit_cond. destruct (good_points x y) as [|a0 r0]; auto. cbv zeta. unfold parse_args. rewrite !flat_even.
    destruct (parse_pairs (prepare x y e lv) default_opts (flat ps)) as [o|] eqn:Ep; [|discriminate]. cbn [bind].
    pose proof (parse_clear _ _ _ _ Ep) as Ec. change (clear_init default_opts) with (@default_opts T) in Ec. rewrite Ec. cbn [bind].
    cbn [o_max o_breaks clear_init].
    destruct (py_int_of (o_max o)) as [mx|]; [|discriminate]. cbn [bind]. destruct (dims_of mx) as [d|]; [|discriminate]. cbn [bind].
    set (t0 := mkTables _ _ _ _ _).
    change (setup det solve (prepare x y e lv) (clear_init o) d mx t0) with (setup det solve (prepare x y e lv) o d mx t0).
    destruct (setup _ _ _ _ _ _ _) as [[[n1 m1] t1]|]; [|discriminate]. cbn [bind].
    change (candidates (prepare x y e lv) (clear_init o) n1 m1) with (candidates (prepare x y e lv) o n1 m1).
    destruct (candidates _ _ _ _) as [[pb n2] m2].
    destruct (score_all _ _ _ _ _ o _ _ _ _ _) as [t2|] eqn:Es; [|discriminate]. rewrite (score_all_clear _ _ _ _ _ _ _ _ Es). cbn [bind].
    change (choose (clear_init o) d pb n2 m2 t2) with (choose o d pb n2 m2 t2).
    destruct (choose _ _ _ _ _ _) as [best|]; [|discriminate]. cbn [bind]. now rewrite evaluate_clear.
  Qed.
End Init.
