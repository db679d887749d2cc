(* Finite sums and linear algebra over the reals (mathematics only, no model of /repo code).
   Matrices are functions nat -> nat -> R used on an initial range of indices. *)
From Coq Require Import List Reals Lra Lia Arith Bool Permutation FunctionalExtensionality.
From Verif Require Import Num NumFacts.
Import ListNotations.
Local Open Scope R_scope.

Definition bsum (n : nat) (f : nat -> R) : R := rsum (map f (seq 0 n)).

Lemma bsum_0 f : bsum 0 f = 0.
Proof. reflexivity. Qed.

Lemma bsum_S n f : bsum (S n) f = f 0%nat + bsum n (fun i => f (S i)).
Proof. unfold bsum. cbn [seq map]. rewrite <- seq_shift, map_map. reflexivity. Qed.

Lemma bsum_Sr n f : bsum (S n) f = bsum n f + f n.
Proof. unfold bsum. rewrite seq_S, map_app, rsum_app. simpl. lra. Qed.

Lemma bsum_ext n f g : (forall i, (i < n)%nat -> f i = g i) -> bsum n f = bsum n g.
Proof.
  intros E. unfold bsum. f_equal. apply map_ext_in. intros i Hi. apply in_seq in Hi. apply E. lia.
Qed.

Lemma bsum_plus n f g : bsum n (fun i => f i + g i) = bsum n f + bsum n g.
Proof. apply rsum_map_plus. Qed.

Lemma bsum_scal n c f : bsum n (fun i => c * f i) = c * bsum n f.
Proof. apply rsum_map_scal. Qed.

Lemma bsum_scal_r n c f : bsum n (fun i => f i * c) = bsum n f * c.
Proof. rewrite Rmult_comm, <- bsum_scal. apply bsum_ext. intros; lra. Qed.

Lemma bsum_opp n f : bsum n (fun i => - f i) = - bsum n f.
Proof. replace (- bsum n f) with ((-1) * bsum n f) by lra. rewrite <- bsum_scal.
  apply bsum_ext; intros; lra. Qed.

Lemma bsum_minus n f g : bsum n (fun i => f i - g i) = bsum n f - bsum n g.
Proof.
  unfold Rminus. rewrite <- bsum_opp, <- bsum_plus. reflexivity.
Qed.

Lemma bsum_const n c : bsum n (fun _ => c) = INR n * c.
Proof. unfold bsum. rewrite rsum_const, seq_length. reflexivity. Qed.

Lemma bsum_zero n f : (forall i, (i < n)%nat -> f i = 0) -> bsum n f = 0.
Proof. intros E. rewrite (bsum_ext _ _ (fun _ => 0)) by auto. rewrite bsum_const. lra. Qed.

Lemma bsum_nonneg n f : (forall i, (i < n)%nat -> 0 <= f i) -> 0 <= bsum n f.
Proof.
  intros P. apply rsum_nonneg. intros x Hx. apply in_map_iff in Hx as (i & <- & Hi).
  apply in_seq in Hi. apply P. lia.
Qed.

Lemma bsum_le n f g : (forall i, (i < n)%nat -> f i <= g i) -> bsum n f <= bsum n g.
Proof.
  intros P. apply rsum_le. intros i Hi. apply in_seq in Hi. apply P. lia.
Qed.

Lemma bsum_zero_each n f : (forall i, (i < n)%nat -> 0 <= f i) -> bsum n f = 0 ->
  forall i, (i < n)%nat -> f i = 0.
Proof.
  intros P E i Hi. unfold bsum in E. apply (proj1 (rsum_zero_iff (map f (seq 0 n))
    ltac:(intros x Hx; apply in_map_iff in Hx as (j & <- & Hj); apply in_seq in Hj; apply P; lia))).
  - exact E.
  - apply in_map. apply in_seq. lia.
Qed.

Lemma bsum_swap n m (f : nat -> nat -> R) :
  bsum n (fun i => bsum m (fun j => f i j)) = bsum m (fun j => bsum n (fun i => f i j)).
Proof.
  revert f; induction n as [|n IH]; intros f.
  - rewrite bsum_0. symmetry. apply bsum_zero. intros; apply bsum_0.
  - rewrite bsum_S, IH, <- bsum_plus. apply bsum_ext. intros j _. now rewrite bsum_S.
Qed.

Definition delta (i j : nat) : R := if Nat.eqb i j then 1 else 0.

Lemma delta_same i : delta i i = 1.
Proof. unfold delta. now rewrite Nat.eqb_refl. Qed.
Lemma delta_diff i j : i <> j -> delta i j = 0.
Proof. unfold delta. intros. now rewrite (proj2 (Nat.eqb_neq i j)). Qed.
Lemma delta_sym i j : delta i j = delta j i.
Proof. unfold delta. now rewrite Nat.eqb_sym. Qed.

Lemma bsum_delta n k f : (k < n)%nat -> bsum n (fun i => delta k i * f i) = f k.
Proof.
  revert k f; induction n as [|n IH]; intros k f Hk; [lia|].
  rewrite bsum_S. destruct k as [|k].
  - rewrite delta_same, bsum_zero; [lra|]. intros i _. rewrite delta_diff by lia. lra.
  - rewrite delta_diff by lia.
    assert (E : bsum n (fun i => delta (S k) (S i) * f (S i)) = f (S k)).
    { rewrite (bsum_ext n _ (fun i => delta k i * f (S i))); [apply (IH k (fun i => f (S i))); lia|].
      intros i _. unfold delta. reflexivity. }
    rewrite E. lra.
Qed.

Lemma bsum_delta_r n k f : (k < n)%nat -> bsum n (fun i => f i * delta i k) = f k.
Proof.
  intros Hk. rewrite <- (bsum_delta n k f Hk). apply bsum_ext. intros i _.
  rewrite delta_sym. lra.
Qed.

Definition rmat := nat -> nat -> R.
Definition rvec := nat -> R.
Definition mv (n : nat) (a : rmat) (x : rvec) : rvec := fun i => bsum n (fun k => a i k * x k).
Definition mm (n : nat) (a b : rmat) : rmat := fun i j => bsum n (fun k => a i k * b k j).
Definition inj (n : nat) (a : rmat) : Prop :=
  forall x, (forall i, (i < n)%nat -> mv n a x i = 0) -> forall i, (i < n)%nat -> x i = 0.
Definition qform (n : nat) (a : rmat) (x : rvec) : R :=
  bsum n (fun i => bsum n (fun j => x i * x j * a i j)).
Definition psd (n : nat) (a : rmat) : Prop := forall x, 0 <= qform n a x.
Definition sym (n : nat) (a : rmat) : Prop :=
  forall i j, (i < n)%nat -> (j < n)%nat -> a i j = a j i.
Definition eqm (n m : nat) (a b : rmat) : Prop :=
  forall i j, (i < n)%nat -> (j < m)%nat -> a i j = b i j.

Lemma qform_mv n a x : qform n a x = bsum n (fun i => x i * mv n a x i).
Proof.
  unfold qform, mv. apply bsum_ext. intros i _. rewrite <- bsum_scal.
  apply bsum_ext. intros; lra.
Qed.

Lemma mm_assoc n m (a b c : rmat) i j :
  mm m (mm n a b) c i j = mm n a (mm m b c) i j.
Proof.
  unfold mm.
  rewrite (bsum_ext m _ (fun k => bsum n (fun k0 => a i k0 * b k0 k * c k j))).
  2:{ intros k _. rewrite <- bsum_scal_r. reflexivity. }
  rewrite bsum_swap. apply bsum_ext. intros k _. rewrite <- bsum_scal.
  apply bsum_ext. intros; lra.
Qed.

Lemma mv_mm n m a b x i : mv m (mm n a b) x i = mv n a (mv m b x) i.
Proof.
  unfold mv, mm.
  rewrite (bsum_ext m _ (fun k => bsum n (fun k0 => a i k0 * b k0 k * x k))).
  2:{ intros k _. rewrite <- bsum_scal_r. reflexivity. }
  rewrite bsum_swap. apply bsum_ext. intros k _. rewrite <- bsum_scal.
  apply bsum_ext. intros; lra.
Qed.

Lemma mv_ext n a b x y i : (forall k, (k < n)%nat -> a i k = b i k) ->
  (forall k, (k < n)%nat -> x k = y k) -> mv n a x i = mv n b y i.
Proof. intros A B. apply bsum_ext. intros k Hk. now rewrite A, B. Qed.

(* ---- elimination ---- *)
Definition vcons (a : R) (v : rvec) : rvec := fun i => match i with O => a | S j => v j end.

(* exchange rows 0 and p *)
Definition swp (p i : nat) : nat := if Nat.eqb i 0 then p else if Nat.eqb i p then 0%nat else i.

Lemma swp_lt p i n : (p < n)%nat -> (i < n)%nat -> (swp p i < n)%nat.
Proof. unfold swp. intros. destruct (Nat.eqb_spec i 0), (Nat.eqb_spec i p); lia. Qed.
Lemma swp_swp p i : swp p (swp p i) = i.
Proof.
  unfold swp. destruct (Nat.eqb_spec i 0).
  - subst. destruct (Nat.eqb_spec p 0); [lia|]. rewrite Nat.eqb_refl. reflexivity.
  - destruct (Nat.eqb_spec i p); [simpl; lia|].
    rewrite (proj2 (Nat.eqb_neq i 0)), (proj2 (Nat.eqb_neq i p)); auto.
Qed.

(* first row at or after i (searching k rows) with a non-zero entry in column 0 *)
Fixpoint pivot (k i : nat) (a : rmat) : option nat :=
  match k with
  | O => None
  | S k' => if Req_EM_T (a i 0%nat) 0 then pivot k' (S i) a else Some i
  end.

Lemma pivot_some k i a p : pivot k i a = Some p -> (i <= p < i + k)%nat /\ a p 0%nat <> 0.
Proof.
  revert i; induction k as [|k IH]; simpl; intros i E; [discriminate|].
  destruct (Req_EM_T (a i 0%nat) 0).
  - apply IH in E. intuition lia.
  - inversion E; subst. split; [lia|auto].
Qed.

Lemma pivot_none k i a : pivot k i a = None -> forall p, (i <= p < i + k)%nat -> a p 0%nat = 0.
Proof.
  revert i; induction k as [|k IH]; simpl; intros i E p Hp; [lia|].
  destruct (Req_EM_T (a i 0%nat) 0); [|discriminate].
  destruct (Nat.eq_dec p i); [subst; auto|]. apply (IH _ E). lia.
Qed.

Definition schur (a : rmat) : rmat :=
  fun i j => a (S i) (S j) - a (S i) 0%nat * a 0%nat (S j) / a 0%nat 0%nat.

(* solve a x = b by elimination; None when a is singular *)
Fixpoint gsolve (n : nat) (a : rmat) (b : rvec) : option rvec :=
  match n with
  | O => Some (fun _ => 0)
  | S m =>
      match pivot (S m) 0 a with
      | None => None
      | Some p =>
          let a' := fun i j => a (swp p i) j in
          let b' := fun i => b (swp p i) in
          match gsolve m (schur a') (fun i => b' (S i) - a' (S i) 0%nat * b' 0%nat / a' 0%nat 0%nat) with
          | None => None
          | Some v => Some (vcons ((b' 0%nat - bsum m (fun j => a' 0%nat (S j) * v j)) / a' 0%nat 0%nat) v)
          end
      end
  end.

Lemma schur_row m (a : rmat) (v : rvec) x0 i : a 0%nat 0%nat <> 0 ->
  x0 = (- bsum m (fun j => a 0%nat (S j) * v j)) / a 0%nat 0%nat ->
  forall b0, a (S i) 0%nat * (x0 + b0 / a 0%nat 0%nat) + bsum m (fun j => a (S i) (S j) * v j) =
  mv m (schur a) v i + a (S i) 0%nat * b0 / a 0%nat 0%nat.
Proof.
  intros Ha -> b0. unfold mv, schur.
  rewrite (bsum_ext m (fun k => (a (S i) (S k) - a (S i) 0%nat * a 0%nat (S k) / a 0%nat 0%nat) * v k)
    (fun k => a (S i) (S k) * v k - (a (S i) 0%nat / a 0%nat 0%nat) * (a 0%nat (S k) * v k))).
  2:{ intros; field; auto. }
  rewrite bsum_minus, bsum_scal. field. auto.
Qed.

Lemma gsolve_sound n : forall a b x, gsolve n a b = Some x ->
  forall i, (i < n)%nat -> mv n a x i = b i.
Proof.
  induction n as [|m IH]; intros a b x E i Hi; [lia|].
  cbn [gsolve] in E. destruct (pivot (S m) 0 a) as [p|] eqn:Ep; [|discriminate].
  apply pivot_some in Ep as [Hp Hpz].
  set (a' := fun i j => a (swp p i) j) in *. set (b' := fun i => b (swp p i)) in *.
  cbv zeta in E.
  destruct (gsolve m (schur a') _) as [v|] eqn:Ev; [|discriminate].
  assert (Ex : x = vcons ((b' 0%nat - bsum m (fun j => a' 0%nat (S j) * v j)) / a' 0%nat 0%nat) v)
    by (inversion E; reflexivity). clear E.
  assert (Ha : a' 0%nat 0%nat <> 0) by exact Hpz.
  assert (G : forall k, (k < S m)%nat -> mv (S m) a' x k = b' k).
  { intros k Hk. unfold mv. rewrite bsum_S, Ex. cbn [vcons].
    destruct k as [|k].
    - field. auto.
    - pose proof (IH _ _ _ Ev k ltac:(lia)) as Hv.
      pose proof (schur_row m a' v _ k Ha eq_refl (b' 0%nat)) as Hs. rewrite Hv in Hs.
      replace ((b' 0%nat - bsum m (fun j => a' 0%nat (S j) * v j)) / a' 0%nat 0%nat)
        with (- bsum m (fun j => a' 0%nat (S j) * v j) / a' 0%nat 0%nat + b' 0%nat / a' 0%nat 0%nat)
        by (field; auto).
      etransitivity; [exact Hs|]. unfold b', a'. lra. }
  specialize (G (swp p i) (swp_lt p i (S m) ltac:(lia) Hi)).
  unfold a', b', mv in G. cbv beta in G. rewrite swp_swp in G. exact G.
Qed.

Lemma inj_schur m a : a 0%nat 0%nat <> 0 -> inj (S m) a -> inj m (schur a).
Proof.
  intros Ha I v Hv.
  set (x0 := - bsum m (fun j => a 0%nat (S j) * v j) / a 0%nat 0%nat).
  assert (Z : forall i, (i < S m)%nat -> vcons x0 v i = 0).
  { apply I. intros i Hi. unfold mv. rewrite bsum_S. cbn [vcons].
    destruct i as [|i].
    - unfold x0. field. auto.
    - pose proof (schur_row m a v x0 i Ha eq_refl 0) as Hs.
      rewrite Hv in Hs by lia. unfold Rdiv in Hs. rewrite Rmult_0_l, Rplus_0_r in Hs.
      etransitivity; [exact Hs|]. lra. }
  intros i Hi. apply (Z (S i)). lia.
Qed.

Lemma inj_swp m a p : (p < S m)%nat -> inj (S m) a -> inj (S m) (fun i j => a (swp p i) j).
Proof.
  intros Hp I x Hx. apply I. intros i Hi.
  specialize (Hx (swp p i) (swp_lt p i (S m) Hp Hi)). unfold mv in *. cbv beta in Hx.
  now rewrite swp_swp in Hx.
Qed.

Lemma gsolve_complete n : forall a b, inj n a -> exists x, gsolve n a b = Some x.
Proof.
  induction n as [|m IH]; intros a b I; [simpl; eauto|].
  cbn [gsolve]. destruct (pivot (S m) 0 a) as [p|] eqn:Ep.
  - apply pivot_some in Ep as [Hp Hpz]. cbv zeta.
    set (a' := fun i j => a (swp p i) j).
    match goal with |- context [gsolve m (schur a') ?b0] => destruct (IH (schur a') b0) as [v Hv] end.
    { apply inj_schur; [exact Hpz|]. apply inj_swp; [lia|auto]. }
    rewrite Hv. eauto.
  - exfalso. pose proof (pivot_none _ _ _ Ep) as Z.
    assert (C : (1:R) = 0); [|lra].
    pose proof (I (vcons 1 (fun _ => 0))) as Q. apply (Q) with (i := 0%nat); [|lia].
    intros i Hi. unfold mv. rewrite bsum_S. cbn [vcons]. rewrite Z by lia.
    rewrite bsum_zero; [lra|]. intros; lra.
Qed.

Theorem inj_solvable n a : inj n a -> forall b, exists x, forall i, (i < n)%nat -> mv n a x i = b i.
Proof.
  intros I b. destruct (gsolve_complete n a b I) as [x Hx]. exists x. now apply gsolve_sound.
Qed.

(* exact inverse: columns solve a x = e_j *)
Definition ginv (n : nat) (a : rmat) : option rmat :=
  if forallb (fun j => match gsolve n a (fun i => delta i j) with Some _ => true | None => false end)
       (seq 0 n)
  then Some (fun i j => match gsolve n a (fun k => delta k j) with Some x => x i | None => 0 end)
  else None.

Definition is_inverse (n : nat) (a b : rmat) : Prop :=
  eqm n n (mm n a b) delta /\ eqm n n (mm n b a) delta.

Lemma right_inverse_left n a b : inj n a -> eqm n n (mm n a b) delta -> eqm n n (mm n b a) delta.
Proof.
  intros I R i j Hi Hj.
  assert (Z : forall k, (k < n)%nat -> mm n b a k j - delta k j = 0).
  { apply I. intros k Hk.
    assert (E : mv n a (fun k0 => mm n b a k0 j - delta k0 j) k =
                mm n a (mm n b a) k j - a k j).
    { unfold mv. rewrite (bsum_ext n _ (fun k0 => a k k0 * mm n b a k0 j - a k k0 * delta k0 j))
        by (intros; lra).
      rewrite bsum_minus. rewrite (bsum_delta_r n j (fun k0 => a k k0)) by auto. reflexivity. }
    rewrite E. rewrite <- (mm_assoc n n a b a k j).
    unfold mm at 1. rewrite (bsum_ext n _ (fun k0 => delta k k0 * a k0 j)).
    2:{ intros k0 Hk0. rewrite R by auto. reflexivity. }
    rewrite bsum_delta by auto. lra. }
  specialize (Z i Hi). lra.
Qed.

Lemma inj_invertible n a : inj n a -> exists b, ginv n a = Some b /\ is_inverse n a b.
Proof.
  intros I. unfold ginv.
  assert (F : forallb (fun j => match gsolve n a (fun i => delta i j) with Some _ => true | None => false end)
       (seq 0 n) = true).
  { apply forallb_forall. intros j _. destruct (gsolve_complete n a (fun i => delta i j) I) as [x ->].
    reflexivity. }
  rewrite F. eexists. split; [reflexivity|].
  assert (R : eqm n n (mm n a (fun i j => match gsolve n a (fun k => delta k j) with Some x => x i | None => 0 end)) delta).
  { intros i j Hi Hj. unfold mm. destruct (gsolve_complete n a (fun k => delta k j) I) as [x Hx].
    rewrite Hx. exact (gsolve_sound n a _ x Hx i Hi). }
  split; auto. now apply right_inverse_left.
Qed.

Lemma inverse_inj n a b : eqm n n (mm n b a) delta -> inj n a.
Proof.
  intros L x Hx i Hi.
  assert (E : mv n (mm n b a) x i = 0).
  { rewrite mv_mm. unfold mv at 1. apply bsum_zero. intros k Hk. rewrite Hx by auto. lra. }
  unfold mv in E. rewrite (bsum_ext n _ (fun k => delta i k * x k)) in E.
  - rewrite bsum_delta in E; auto.
  - intros k Hk. rewrite L by auto. reflexivity.
Qed.

Lemma ginv_sound n a b : ginv n a = Some b -> eqm n n (mm n a b) delta.
Proof.
  unfold ginv. destruct (forallb _ _) eqn:F; [|discriminate]. intros E i j Hi Hj.
  assert (Eb : b = (fun i j => match gsolve n a (fun k => delta k j) with Some x => x i | None => 0 end))
    by (inversion E; reflexivity).
  rewrite forallb_forall in F. specialize (F j ltac:(apply in_seq; lia)).
  unfold mm. rewrite Eb. destruct (gsolve n a (fun k => delta k j)) as [x|] eqn:Ex; [|discriminate].
  exact (gsolve_sound n a _ x Ex i Hi).
Qed.

(* a right inverse of a square matrix is two-sided *)
Lemma right_inverse_inj n a b : eqm n n (mm n a b) delta -> is_inverse n a b.
Proof.
  intros R. assert (Ib : inj n b) by (apply (inverse_inj n b a R)).
  pose proof (right_inverse_left n b) as Q.
  destruct (inj_invertible n b Ib) as (c & _ & Rc & Lc).
  (* b c = 1 and a b = 1 give a = c *)
  assert (E : eqm n n a c).
  { intros i j Hi Hj.
    transitivity (mm n a (mm n b c) i j).
    - unfold mm at 1. rewrite (bsum_ext n _ (fun k => a i k * delta k j)).
      + now rewrite bsum_delta_r.
      + intros k Hk. rewrite Rc by auto. reflexivity.
    - rewrite <- (mm_assoc n n). unfold mm at 1.
      rewrite (bsum_ext n _ (fun k => delta i k * c k j)).
      + now rewrite bsum_delta.
      + intros k Hk. rewrite R by auto. reflexivity. }
  split; auto. intros i j Hi Hj. rewrite <- (Rc i j Hi Hj). unfold mm.
  apply bsum_ext. intros k Hk. now rewrite E.
Qed.

Lemma is_inverse_unique n a b c : is_inverse n a b -> is_inverse n a c -> eqm n n b c.
Proof.
  intros [R1 L1] [R2 L2] i j Hi Hj.
  transitivity (mm n b (mm n a c) i j).
  - unfold mm at 1. rewrite (bsum_ext n _ (fun k => b i k * delta k j)).
    + now rewrite bsum_delta_r.
    + intros k Hk. rewrite R2 by auto. reflexivity.
  - rewrite <- (mm_assoc n n). unfold mm at 1.
    rewrite (bsum_ext n _ (fun k => delta i k * c k j)).
    + now rewrite bsum_delta.
    + intros k Hk. rewrite L1 by auto. reflexivity.
Qed.

Lemma inverse_sym n a b : sym n a -> is_inverse n a b -> sym n b.
Proof.
  intros S [R L] i j Hi Hj.
  apply (is_inverse_unique n a b (fun i j => b j i)); auto.
  - split; auto.
  - split; intros p q Hp Hq.
    + rewrite delta_sym, <- L by auto. unfold mm. apply bsum_ext. intros k Hk.
      rewrite (S p k) by auto. lra.
    + rewrite delta_sym, <- R by auto. unfold mm. apply bsum_ext. intros k Hk.
      rewrite (S k q) by auto. lra.
Qed.

Definition posdef (n : nat) (a : rmat) : Prop :=
  forall x, (exists i, (i < n)%nat /\ x i <> 0) -> 0 < qform n a x.

Lemma posdef_inj n a : posdef n a -> inj n a.
Proof.
  intros P x Hx i Hi. destruct (Req_EM_T (x i) 0); auto. exfalso.
  assert (Q : 0 < qform n a x) by (apply P; eauto).
  rewrite qform_mv, bsum_zero in Q; [lra|]. intros k Hk. rewrite Hx by auto. lra.
Qed.

Lemma all_zero_or n (x : rvec) :
  (forall i, (i < n)%nat -> x i = 0) \/ (exists i, (i < n)%nat /\ x i <> 0).
Proof.
  induction n as [|n [IH|(i & Hi & Hx)]].
  - left. intros; lia.
  - destruct (Req_EM_T (x n) 0).
    + left. intros i Hi. destruct (Nat.eq_dec i n); [subst; auto|apply IH; lia].
    + right. exists n. split; [lia|auto].
  - right. exists i. split; [lia|auto].
Qed.

(* the inverse of a positive definite matrix is positive definite *)
Lemma inverse_qform n a b y : is_inverse n a b -> qform n b y = qform n a (mv n b y).
Proof.
  intros [R L]. rewrite !qform_mv. apply bsum_ext. intros k Hk.
  rewrite <- mv_mm. rewrite (Rmult_comm (y k)). f_equal. unfold mv.
  rewrite (bsum_ext n _ (fun q => delta k q * y q)); [now rewrite bsum_delta|].
  intros q Hq. rewrite R by auto. reflexivity.
Qed.

Lemma posdef_inverse n a b : posdef n a -> is_inverse n a b -> posdef n b.
Proof.
  intros P V y (i & Hi & Hy). rewrite (inverse_qform n a b y V). apply P.
  destruct (all_zero_or n (mv n b y)) as [Z|E]; auto. exfalso. apply Hy.
  destruct V as [R L]. apply (inverse_inj n b a R); auto.
Qed.

Lemma psd_plus_diag n a s d : psd n a -> 0 <= s -> 0 < d ->
  posdef n (fun i j => s * a i j + d * delta i j).
Proof.
  intros P Hs Hd x (k & Hk & Hx).
  assert (E : qform n (fun i j => s * a i j + d * delta i j) x =
              s * qform n a x + d * bsum n (fun i => x i * x i)).
  { unfold qform. rewrite <- !bsum_scal, <- bsum_plus. apply bsum_ext. intros i Hi.
    rewrite <- bsum_scal. rewrite (bsum_ext n _ (fun j => s * (x i * x j * a i j) + (d * x i) * (delta i j * x j)))
      by (intros; lra).
    rewrite bsum_plus, bsum_scal, (bsum_scal n (d * x i)), bsum_delta by auto.
    lra. }
  rewrite E. specialize (P x).
  assert (0 < bsum n (fun i => x i * x i)).
  { destruct (Rle_lt_or_eq_dec 0 (bsum n (fun i => x i * x i))) as [L|Z]; auto.
    - apply bsum_nonneg. intros; apply Rle_0_sqr.
    - exfalso. apply Hx. symmetry in Z.
      pose proof (bsum_zero_each n _ ltac:(intros; apply Rle_0_sqr) Z k Hk) as Q. cbv beta in Q.
      apply Rmult_integral in Q. tauto. }
  assert (0 <= s * qform n a x) by (apply Rmult_le_pos; auto). nra.
Qed.
