(* Proofs for fit_cond: choice and evaluation of the constant and the linear fit *)
From Coq Require Import String ZArith List Bool Reals Lra Lia Sorted Permutation FunctionalExtensionality.
From Flocq Require Import Core.Raux.
From Verif Require Import Num Np NumFacts NpFacts Utilities Finders Stats FitCond Spec_Utilities Spec_Finders Spec_Stats
  Spec_FitCond LinR LeastSq Proofs_Utilities Proofs_Besthist Proofs_Thetas2 Proofs_Stats1 Proofs_Fit Proofs_FC1 Proofs_FC2 Proofs_FC3 Proofs_FC4 Proofs_FC5.
Import ListNotations.
Local Open Scope R_scope.
Local Open Scope list_scope.

(* ---- ranges ---- *)
Lemma zrange_nil a b : (b <= a)%Z -> zrange a b = [].
Proof. intros H. unfold zrange. replace (Z.to_nat (b - a)) with 0%nat by lia. reflexivity. Qed.
Lemma zrange_cons a b : (a < b)%Z -> zrange a b = a :: zrange (a + 1) b.
Proof.
  intros H. unfold zrange. replace (Z.to_nat (b - a)) with (S (Z.to_nat (b - (a + 1)))) by lia.
  cbn [seq map]. f_equal; [lia|]. rewrite <- seq_shift, map_map. apply map_ext. intros k. lia.
Qed.
Lemma zrange_in a b k : In k (zrange a b) <-> (a <= k < b)%Z.
Proof.
  unfold zrange. rewrite in_map_iff. split.
  - intros (i & <- & Hi). apply in_seq in Hi. lia.
  - intros Hk. exists (Z.to_nat (k - a)). split; [lia|]. apply in_seq. lia.
Qed.

(* ---- argmin ---- *)
Section Argmin.
  Context {T : Type} `{Num T}.
  Lemma argmin_from_range l : forall i best (m : T), let r := argmin_from i best m l in
    r = best \/ (i <= r < i + length l)%nat.
  Proof.
    induction l as [|x l IH]; intros i best m; cbn [argmin_from length]; [auto|].
    destruct (nisnan m); [auto|]. destruct (_ || _).
    - destruct (IH (S i) i x); lia.
    - destruct (IH (S i) best m); lia.
  Qed.
  Lemma argmin_lt (l : list T) : l <> [] -> (argmin l < length l)%nat.
  Proof.
    destruct l as [|a l]; [congruence|]. intros _. unfold argmin. cbn [length].
    destruct (argmin_from_range l 1 0 a); lia.
  Qed.
  Lemma argmin_zero (a b : T) l : nisnan a = false -> argmin (a :: b :: l) = 0%nat -> nisnan b || nltb b a = false.
  Proof.
    intros Na. unfold argmin. cbn [argmin_from]. rewrite Na. destruct (_ || _); auto. intros E.
    destruct (argmin_from_range l 2 1 b); lia.
  Qed.
  Lemma argmin_one (a b : T) l : argmin (a :: b :: l) = 1%nat -> nisnan a = false /\ nisnan b || nltb b a = true.
  Proof.
    unfold argmin. cbn [argmin_from]. destruct (nisnan a); [discriminate|]. destruct (_ || _); auto. intros E.
    destruct (argmin_from_range l 2 0 a); lia.
  Qed.
End Argmin.

(* ---- later candidates leave the first two columns alone ---- *)
Section Keep.
  Context {T : Type} `{Num T} `{NumT T}.
  Notation mat := (nat -> nat -> T).
  Variable det : nat -> mat -> T.
  Variable solve : nat -> nat -> mat -> mat -> res mat.
  Variable inv : nat -> mat -> res mat.
  Variable least_squares : (list T -> res (list T)) -> list T -> res (list (list T) * list T).

  Definition keeps (t t' : @tables T) : Prop :=
    (forall i j, (j <= 1)%nat -> b_A t' i j = b_A t i j) /\ (forall j, (j <= 1)%nat -> aic t' j = aic t j).
  Lemma set_col_keep r c (m m' : mat) cnt k l : set_col r c m cnt k l = Ok m' -> (1 < k)%nat ->
    forall i j, (j <= 1)%nat -> m' i j = m i j.
  Proof.
    unfold set_col. destruct (Nat.leb c k); [discriminate|]. destruct (_ || _); [|discriminate].
    intros E Hk i j Hj. apply ok_inj in E. subst m'. destruct (Nat.eqb_spec j k); [lia|]. reflexivity.
  Qed.
  Lemma set_coefs_keep n (m m' : mat) cnt k a : set_coefs n m cnt k a = Ok m' -> (1 < k)%nat ->
    forall i j, (j <= 1)%nat -> m' i j = m i j.
  Proof.
    unfold set_coefs. destruct a; [apply set_col_keep|]. destruct (Nat.leb n k); discriminate.
  Qed.
  Lemma set_cell_keep c (r r' : nat -> T) k w : set_cell c r k w = Ok r' -> (1 < k)%nat ->
    forall j, (j <= 1)%nat -> r' j = r j.
  Proof.
    unfold set_cell. destruct (Nat.leb c k); [discriminate|]. intros E Hk j Hj. apply ok_inj in E. subst r'.
    destruct (Nat.eqb_spec j k); [lia|]. reflexivity.
  Qed.
  Lemma score_keeps p o d nbr1 mb k t t' : (1 <= k)%Z -> score det solve inv least_squares p o d nbr1 mb k t = Ok t' -> keeps t t'.
  Proof.
    intros Hk. unfold score. destruct (Z.eqb_spec k (-1)); [lia|]. destruct (Z.eqb_spec k 0); [lia|].
    destruct (Nat.leb _ _); [discriminate|]. intros E.
    apply bind_ok in E as ([[brks a] residual] & _ & E).
    apply bind_ok in E as (bp & _ & E). apply bind_ok in E as (bA & EA & E).
    apply bind_ok in E as (rs & _ & E). apply bind_ok in E as (ai & Ea & E). apply ok_inj in E. subst t'.
    split; cbn [b_A aic].
    - eapply set_coefs_keep; [exact EA|lia].
    - eapply set_cell_keep; [exact Ea|lia].
  Qed.
  Lemma score_all_keeps p o d nbr1 mb ks : (forall k, In k ks -> (1 <= k)%Z) -> forall t t',
    score_all det solve inv least_squares p o d nbr1 mb ks t = Ok t' -> keeps t t'.
  Proof.
    induction ks as [|k ks IH]; intros Hk t t'; cbn [score_all]; intros E.
    - apply ok_inj in E. subst. split; auto.
    - apply bind_ok in E as (t1 & E1 & E2).
      destruct (score_keeps _ _ _ _ _ _ _ _ (Hk k ltac:(simpl; auto)) E1) as [A1 B1].
      destruct (IH ltac:(intros; apply Hk; simpl; auto) t1 t' E2) as [A2 B2].
      split; intros; [rewrite A2, A1|rewrite B2, B1]; auto.
  Qed.

  (* fits with break points are not evaluated unless the breaks are prescribed *)
  Variable rng : Type.
  Variable randn : nat -> rng -> list T * rng.
  Lemma evaluate_breaks p o nbr1 t best g z : (3 <= best)%nat -> o_set o = false -> o_nloops o = VInt z -> (0 <= z)%Z ->
    exists e g', evaluate det solve inv least_squares rng randn p o nbr1 t best g = (Raise e, g').
  Proof.
    intros Hb Ho Hl Hz. unfold evaluate. destruct (param_var _ _ _ _) as [[p1 p2]|e]; [|eauto].
    destruct (Nat.eqb_spec best 1); [lia|]. rewrite Hl. destruct (Z.eq_dec z 0) as [->|Nz].
    - cbn [Z.to_nat mc_loop Z.eqb]. eauto.
    - destruct (Z.to_nat z) as [|k] eqn:Ez; [lia|]. cbn [mc_loop].
      destruct (randn (length (yf p)) g) as [zs g'].
      unfold mc_coefs. destruct (Nat.eqb_spec best 2); [lia|]. rewrite Ho.
      destruct (least_squares _ _) as [r|e]; cbn [bind]; eauto.
  Qed.
End Keep.
