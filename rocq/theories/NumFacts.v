(* Lemmas about [XR] and the error monad; no model of /repo code. *)
From Coq Require Import ZArith List Bool Reals Lra Lia Permutation Sorted.
From Flocq Require Import Core.Raux.
From Verif Require Import Num Np.
Import ListNotations.

Lemma Rltb_true a b : Rltb a b = true <-> (a < b)%R.
Proof. unfold Rltb. destruct (Rlt_dec a b); split; intros; auto; congruence || contradiction. Qed.
Lemma Rltb_false a b : Rltb a b = false <-> (b <= a)%R.
Proof. unfold Rltb. destruct (Rlt_dec a b); split; intros; auto; try congruence; lra. Qed.
Lemma Rleb_true a b : Rleb a b = true <-> (a <= b)%R.
Proof. unfold Rleb. destruct (Rle_dec a b); split; intros; auto; congruence || contradiction. Qed.
Lemma Rleb_false a b : Rleb a b = false <-> (b < a)%R.
Proof. unfold Rleb. destruct (Rle_dec a b); split; intros; auto; try congruence; lra. Qed.
Lemma Reqb_true a b : Reqb a b = true <-> a = b.
Proof. unfold Reqb. destruct (Req_EM_T a b); split; intros; auto; congruence || contradiction. Qed.
Lemma Reqb_false a b : Reqb a b = false <-> a <> b.
Proof. unfold Reqb. destruct (Req_EM_T a b); split; intros; auto; congruence || contradiction. Qed.

(* rewrite boolean comparisons of reals in hypotheses into propositions *)
Ltac rb :=
  repeat match goal with
  | H : Rltb _ _ = true |- _ => apply Rltb_true in H
  | H : Rltb _ _ = false |- _ => apply Rltb_false in H
  | H : Rleb _ _ = true |- _ => apply Rleb_true in H
  | H : Rleb _ _ = false |- _ => apply Rleb_false in H
  | H : Reqb _ _ = true |- _ => apply Reqb_true in H
  | H : Reqb _ _ = false |- _ => apply Reqb_false in H
  | |- Rltb _ _ = true => apply Rltb_true
  | |- Rltb _ _ = false => apply Rltb_false
  | |- Rleb _ _ = true => apply Rleb_true
  | |- Rleb _ _ = false => apply Rleb_false
  | |- Reqb _ _ = true => apply Reqb_true
  | |- Reqb _ _ = false => apply Reqb_false
  | H : context [Rlt_dec ?a ?b] |- _ => destruct (Rlt_dec a b)
  | |- context [Rlt_dec ?a ?b] => destruct (Rlt_dec a b)
  end.

(* boolean case split on a real comparison *)
Ltac rcase :=
  match goal with
  | |- context [Rltb ?a ?b] => let E := fresh "E" in destruct (Rltb a b) eqn:E
  | |- context [Rleb ?a ?b] => let E := fresh "E" in destruct (Rleb a b) eqn:E
  | |- context [Reqb ?a ?b] => let E := fresh "E" in destruct (Reqb a b) eqn:E
  | H : context [Rltb ?a ?b] |- _ => let E := fresh "E" in destruct (Rltb a b) eqn:E
  | H : context [Rleb ?a ?b] |- _ => let E := fresh "E" in destruct (Rleb a b) eqn:E
  | H : context [Reqb ?a ?b] |- _ => let E := fresh "E" in destruct (Reqb a b) eqn:E
  end.

Lemma xdiv_fin a b : b <> 0%R -> xdiv (Fin a) (Fin b) = Fin (a / b).
Proof. intros Hb. simpl. destruct (Req_EM_T b 0); [contradiction|reflexivity]. Qed.

Lemma ndiv_fin a b : b <> 0%R -> ndiv (Fin a) (Fin b) = Fin (a / b).
Proof. apply xdiv_fin. Qed.

Lemma nq_fin a b : (b <> 0)%Z -> @nq XR _ a b = Fin (IZR a / IZR b).
Proof. intros Hb. unfold nq. cbn [nofZ XR_Num]. apply ndiv_fin. intro E. apply eq_IZR in E. auto. Qed.

Lemma pydiv_fin a b : b <> 0%R -> pydiv (Fin a) (Fin b) = Ok (Fin (a / b)).
Proof.
  intros Hb. unfold pydiv. cbn [neqb nofZ XR_Num xeqb].
  replace (Reqb b 0) with false by (symmetry; rb; auto).
  now rewrite ndiv_fin.
Qed.

Lemma pydiv_zero a b : b = 0%R -> pydiv (Fin a) (Fin b) = Raise ZeroDivisionError.
Proof.
  intros ->. unfold pydiv. cbn [neqb nofZ XR_Num xeqb].
  replace (Reqb 0 0) with true by (symmetry; rb; auto). reflexivity.
Qed.

Lemma xsqrt_fin a : (0 <= a)%R -> nsqrt (Fin a) = Fin (sqrt a).
Proof. intros Ha. cbn. rb; [lra|reflexivity]. Qed.

(* value of a finite number (0 on the others) *)
Definition fin_val (x : XR) : R := match x with Fin r => r | _ => 0%R end.
Definition is_fin (x : XR) : Prop := exists r, x = Fin r.

Lemma is_fin_val x : is_fin x -> x = Fin (fin_val x).
Proof. intros [r ->]. reflexivity. Qed.

(* ---- the sort order slt is a strict weak order on XR ---- *)
Class NumOrd (T : Type) `{Num T} : Prop := {
  slt_asym : forall a b : T, slt a b = true -> slt b a = false;
  slt_negtrans : forall a b c : T, slt b a = false -> slt c b = false -> slt c a = false
}.

#[global] Instance XR_NumOrd : NumOrd XR.
Proof.
  constructor.
  - intros [a| | |] [b| | |]; unfold slt; cbn; intros E; auto; try discriminate;
      rewrite ?orb_false_r in *; rb; try lra; auto.
  - intros [a| | |] [b| | |] [c| | |]; unfold slt; cbn; intros E F; auto; try discriminate;
      rewrite ?orb_false_r in *; rb; try lra; auto.
Qed.

(* error monad *)
Lemma bind_ok {A B} (x : res A) (f : A -> res B) b :
  bind x f = Ok b -> exists a, x = Ok a /\ f a = Ok b.
Proof. destruct x; simpl; intros E; [eauto|discriminate]. Qed.

Lemma mapM_ok {A B} (f : A -> res B) l bs :
  mapM f l = Ok bs <-> Forall2 (fun a b => f a = Ok b) l bs.
Proof.
  revert bs; induction l as [|a l IH]; simpl; intros bs.
  - split; intros E; [inversion E; constructor|inversion E; reflexivity].
  - split.
    + intros E. apply bind_ok in E as (b & Eb & E). apply bind_ok in E as (bs' & Ebs & E).
      inversion E; subst. constructor; auto. now apply IH.
    + intros E; inversion E; subst. rewrite H1; simpl. apply IH in H3. rewrite H3. reflexivity.
Qed.

Lemma mapM_map {A B} (f : A -> res B) (g : A -> B) l :
  (forall a, In a l -> f a = Ok (g a)) -> mapM f l = Ok (map g l).
Proof.
  induction l as [|a l IH]; simpl; intros Hf; auto.
  rewrite Hf by auto. simpl. rewrite IH by auto. reflexivity.
Qed.

Lemma mapM_length {A B} (f : A -> res B) l bs : mapM f l = Ok bs -> length bs = length l.
Proof. intros E. apply mapM_ok in E. induction E; simpl; auto. Qed.

(* finite sums *)
Definition rsum (l : list R) : R := fold_right Rplus 0%R l.

Lemma fold_left_plus l a : fold_left Rplus l a = (a + rsum l)%R.
Proof. revert a; induction l as [|x l IH]; simpl; intros; [lra|]. rewrite IH. lra. Qed.

Lemma nsum_fin l : nsum (map Fin l) = Fin (rsum l).
Proof.
  unfold nsum. cbn [nofZ XR_Num].
  assert (G : forall a, fold_left nadd (map Fin l) (Fin a) = Fin (a + rsum l)).
  { induction l as [|x l IH]; simpl; intros a; [f_equal; lra|].
    change (nadd (Fin a) (Fin x)) with (Fin (a + x)). rewrite IH. f_equal. lra. }
  rewrite G. f_equal. lra.
Qed.

Lemma rsum_app a b : rsum (a ++ b) = (rsum a + rsum b)%R.
Proof. induction a; simpl; [lra|]. rewrite IHa. lra. Qed.

Lemma rsum_perm a b : Permutation a b -> rsum a = rsum b.
Proof. induction 1; simpl; lra. Qed.

Lemma rsum_map_plus {A} (f g : A -> R) l :
  rsum (map (fun x => f x + g x)%R l) = (rsum (map f l) + rsum (map g l))%R.
Proof. induction l; simpl; [lra|]. rewrite IHl. lra. Qed.

Lemma rsum_map_scal {A} (c : R) (f : A -> R) l :
  rsum (map (fun x => c * f x)%R l) = (c * rsum (map f l))%R.
Proof. induction l; simpl; [lra|]. rewrite IHl. lra. Qed.

Lemma rsum_const {A} (c : R) (l : list A) : rsum (map (fun _ => c) l) = (INR (length l) * c)%R.
Proof.
  induction l as [|x l IH]; [simpl; lra|]. cbn [map rsum fold_right length].
  fold (rsum (map (fun _ : A => c) l)). rewrite IH, S_INR. lra.
Qed.

Lemma rsum_nonneg l : (forall x, In x l -> 0 <= x)%R -> (0 <= rsum l)%R.
Proof.
  induction l as [|x l IH]; simpl; intros Hl; [lra|].
  assert (0 <= x)%R by auto. assert (0 <= rsum l)%R by auto. lra.
Qed.

Lemma rsum_le {A} (f g : A -> R) l :
  (forall x, In x l -> f x <= g x)%R -> (rsum (map f l) <= rsum (map g l))%R.
Proof.
  induction l as [|x l IH]; simpl; intros Hl; [lra|].
  assert (f x <= g x)%R by auto. assert (rsum (map f l) <= rsum (map g l))%R by auto. lra.
Qed.

Lemma rsum_zero_iff l : (forall x, In x l -> 0 <= x)%R ->
  (rsum l = 0%R <-> forall x, In x l -> x = 0%R).
Proof.
  induction l as [|x l IH]; simpl; intros Hl; [split; [tauto|auto]|].
  assert (0 <= x)%R by auto. assert (0 <= rsum l)%R by (apply rsum_nonneg; auto).
  specialize (IH (fun y h => Hl y (or_intror h))). split.
  - intros E. assert (x = 0)%R by lra. assert (E2 : rsum l = 0%R) by lra.
    intros y [->|Hy]; auto. now apply IH.
  - intros E. rewrite (E x) by auto. rewrite (proj2 IH); [lra|auto].
Qed.

(* decide comparisons of concrete reals *)
Ltac reval :=
  repeat match goal with
  | |- context [Rltb ?a ?b] =>
      first [rewrite (proj2 (Rltb_true a b)) by lra | rewrite (proj2 (Rltb_false a b)) by lra]
  | |- context [Rleb ?a ?b] =>
      first [rewrite (proj2 (Rleb_true a b)) by lra | rewrite (proj2 (Rleb_false a b)) by lra]
  | |- context [Reqb ?a ?b] =>
      first [rewrite (proj2 (Reqb_true a b)) by lra | rewrite (proj2 (Reqb_false a b)) by lra]
  end.
