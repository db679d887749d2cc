(* Proofs for fit_cond: the reported errors *)
From Coq Require Import String ZArith List Bool Reals Lra Lia Sorted Permutation FunctionalExtensionality.
From Verif Require Import Num Np NumFacts NpFacts Utilities Finders Stats FitCond Spec_Utilities Spec_Finders Spec_Stats
  Spec_FitCond LinR LeastSq Proofs_Utilities Proofs_Stats1 Proofs_Fit Proofs_FC1 Proofs_FC2 Proofs_FC3 Proofs_FC4 Proofs_FC5
  Proofs_FC6 Proofs_FC7 Proofs_FC8 Proofs_FC9 Proofs_FC10 Spec_FitErr.
Import ListNotations.
Local Open Scope R_scope.
Local Open Scope list_scope.

(* ---- the matrix products of lines 478-493 ---- *)
Section Products.
  Variables (n k : nat) (E b L : rmat) (w ev : list R) (m : R).
  Hypothesis WV : forall i, (i < n)%nat -> nth i w 0 * nth i ev 0 = m.
  Definition pairs_product : rmat :=
    mm k (mm n (mm n (mm n (mm n (mm n (mm k b (tr E)) (diagR w)) (diagR ev)) L) (diagR w)) E) b.
  Lemma pairs_value i j : pairs_product i j
    = m * bsum n (fun p => bsum n (fun q => mm k b (tr E) i p * L p q * (nth q w 0 * mm k E b q j))).
  Proof.
    unfold pairs_product. rewrite mm_assoc. unfold mm at 1.
    rewrite (bsum_ext n _ (fun q => m * bsum n (fun p => mm k b (tr E) i p * L p q * (nth q w 0 * mm k E b q j)))).
    - rewrite bsum_scal. f_equal. apply (bsum_swap n n (fun q p => mm k b (tr E) i p * L p q * (nth q w 0 * mm k E b q j))).
    - intros q Hq. unfold mm at 1. rewrite (bsum_diag_l n w q) by auto.
      unfold mm at 1.
      rewrite (bsum_ext n _ (fun p => m * (mm k b (tr E) i p * L p q))).
      + rewrite bsum_scal. rewrite bsum_scal_r. ring.
      + intros p Hp. unfold mm at 1. rewrite (bsum_diag_l n ev p) by auto. unfold mm at 1. rewrite (bsum_diag_l n w p) by auto.
        rewrite <- (WV p Hp). ring.
  Qed.
End Products.

Section Value.
  Variable inv : nat -> (nat -> nat -> XR) -> res (nat -> nat -> XR).
  Hypothesis Hinv : inv_ok inv.
  Lemma param_value p best e E w ev L :
    finmat (npts p) best e E -> wdiag p = map Fin w -> length w = npts p -> err_var p = map Fin ev -> length ev = npts p ->
    finmat (npts p) (npts p) (lv p) L ->
    inj best (mm (npts p) (mm (npts p) (tr E) (diagR w)) E) ->
    exists p1 p2 b, param_var inv p best e = Ok (p1, p2) /\
      is_inverse best (mm (npts p) (mm (npts p) (tr E) (diagR w)) E) b /\
      forall i, (i < best)%nat -> p2 i = Fin (pairs_product (npts p) best E b L w ev i i).
  Proof.
    intros He Hw Lw Hev Lev HL I. set (n := npts p) in *.
    assert (We : finmat n n (wmat p) (diagR w)) by (unfold wmat; rewrite Hw; now apply diagm_fin).
    assert (Ve : finmat n n (diagm (vec (err_var p))) (diagR ev)) by (rewrite Hev; now apply diagm_fin).
    assert (Te : finmat best n (transp e) (tr E)) by (intros i j Hi Hj; unfold transp, tr; now apply He).
    assert (M : finmat best best (mmul n (mmul n (transp e) (wmat p)) e) (mm n (mm n (tr E) (diagR w)) E)).
    { apply (mmul_fin n best best); auto. now apply (mmul_fin n best n). }
    destruct (Hinv best _ _ M I) as (B & b & EB & FB & IB).
    unfold param_var. fold n. rewrite EB. cbn [bind]. eexists. eexists. exists b. split; [reflexivity|]. split; [exact IB|].
    intros i Hi. cbv beta. unfold pairs_product.
    refine (mmul_fin best best best _ _ _ _ _ FB i i Hi Hi).
    apply (mmul_fin n best best); auto. apply (mmul_fin n best n); auto. apply (mmul_fin n best n); auto.
    apply (mmul_fin n best n); auto. apply (mmul_fin n best n); auto. now apply (mmul_fin best best n).
  Qed.
End Value.

(* ---- which evaluation a returned fit comes from ---- *)
Section Route.
  Context {T : Type} `{Num T} `{NumT T}.
  Notation mat := (nat -> nat -> T).
  Variable det : nat -> mat -> T.
  Variable solve : nat -> nat -> mat -> mat -> res mat.
  Variable inv : nat -> mat -> res mat.
  Variable least_squares : (list T -> res (list T)) -> list T -> res (list (list T) * list T).
  Variable rng : Type.
  Variable randn : nat -> rng -> list T * rng.
  Notation call := (fit_cond det solve inv least_squares rng randn).

  Lemma zrange_ge a b k : In k (zrange a b) -> (a <= k)%Z.
  Proof. unfold zrange. intros I. apply in_map_iff in I as (i & <- & _). lia. Qed.
  Lemma setup_ge p o d mx t nbr1 max_brk t1 :
    setup det solve p o d mx t = Ok (nbr1, max_brk, t1) -> o_set o = true -> (0 <= nbr1)%Z.
  Proof.
    unfold setup. intros E S. rewrite S in E. destruct (Z.eqb mx 0).
    - apply ok_inj in E. inversion E. lia.
    - destruct (Z.ltb _ mx).
      + destruct (brk_pt_fit _ _ _ _ _ _); cbn [bind] in E; [|discriminate].
        destruct (set_col _ _ _ _ _ _); cbn [bind] in E; [|discriminate].
        destruct (set_coefs _ _ _ _ _); cbn [bind] in E; [|discriminate].
        destruct (set_cell _ _ _ _); cbn [bind] in E; [|discriminate].
        destruct (set_cell _ _ _ _); cbn [bind] in E; [|discriminate].
        apply ok_inj in E. inversion E. lia.
      + apply ok_inj in E. inversion E. lia.
  Qed.
  Lemma candidates_ge p o nbr1 mx pbrk nbr1' mx' : candidates p o nbr1 mx = (pbrk, nbr1', mx') ->
    (o_set o = true -> (0 <= nbr1)%Z) -> o_set o = true -> forall k, In k pbrk -> (0 <= k)%Z.
  Proof.
    unfold candidates. intros E G S k I. specialize (G S). rewrite S in E.
    destruct (nltb _ _); [destruct (nltb _ _)|]; inversion E; subst.
    - apply zrange_ge in I. lia.
    - destruct I as [<-|[]]. lia.
    - apply zrange_ge in I. lia.
  Qed.
  Lemma choose_pos o d pbrk nbr1 mx t best : choose o d pbrk nbr1 mx t = Ok best ->
    (o_set o = true -> forall k, In k pbrk -> (0 <= k)%Z) -> (1 <= best)%nat.
  Proof.
    unfold choose. intros E G. destruct (o_set o && Z.eqb nbr1 mx) eqn:C.
    - apply andb_prop in C as [C _]. destruct pbrk as [|nb [|]]; try discriminate. apply ok_inj in E.
      specialize (G C nb (or_introl eq_refl)). lia.
    - cbv zeta in E. destruct (map _ _) as [|a r] eqn:M; [discriminate|]. destruct (existsb _ _); [discriminate|].
      apply ok_inj in E. lia.
  Qed.
  Lemma fit_route x y e lv args g f g' : call x y e lv args g = (Ok (Fitted f), g') ->
    exists o nbr1 t best, (1 <= best)%nat /\
      evaluate det solve inv least_squares rng randn (prepare x y e lv) o nbr1 t best g = (Ok f, g').
  Proof.
    unfold fit_cond. destruct (good_points x y) as [|a r] eqn:E; [discriminate|]. cbv zeta.
    set (p := prepare x y e lv). clearbody p.
    destruct (parse_args p args) as [o|]; cbn [bind]; [|discriminate].
    destruct (py_int_of (o_max o)) as [mx|]; cbn [bind]; [|discriminate].
    destruct (dims_of mx) as [d|]; cbn [bind]; [|discriminate].
    match goal with |- context [setup det solve p o d mx ?t0] => destruct (setup det solve p o d mx t0) as [[[nbr1 mb] t1]|] eqn:S end;
      cbn [bind]; [|discriminate].
    destruct (candidates p o nbr1 mb) as [[pbrk nbr1'] mb'] eqn:C.
    destruct (score_all _ _ _ _ _ _ _ _ _ _) as [t2|]; cbn [bind]; [|discriminate].
    destruct (choose o d pbrk nbr1' mb' t2) as [best|] eqn:Ch; cbn [bind]; [|discriminate].
    destruct (evaluate _ _ _ _ _ _ _ _ _ _ _ _) as [[f0|] g0] eqn:Ev; [|discriminate].
    intros Q. assert (f0 = f /\ g0 = g') as [-> ->] by (split; congruence).
    exists o, nbr1', t2, best. split; auto. eapply choose_pos; eauto. eapply candidates_ge; eauto. intros St. eapply setup_ge; eauto.
  Qed.
  Lemma evaluate_coefs p o nbr1 t best g f g' : (1 <= best)%nat ->
    evaluate det solve inv least_squares rng randn p o nbr1 t best g = (Ok f, g') -> length (f_coef f) = best.
  Proof.
    intros B. unfold evaluate. destruct (param_var _ _ _ _) as [[p1 p2]|]; [|discriminate].
    match goal with |- context [let '(err, g') := ?X in _] => destruct X as [[err|] g''] end; [|discriminate].
    intros E. apply (f_equal fst) in E. cbn [fst] in E. apply ok_inj in E. rewrite <- E.
    cbn [f_coef length]. rewrite map_length. unfold tab. destruct best; [lia|]. cbn [seq map tl]. now rewrite map_length, seq_length.
  Qed.
End Route.
