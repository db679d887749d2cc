(* Comparisons of doubles are comparisons of the numbers they stand for; hence what the sources
   compute by comparing alone (sorting, counting, selecting) is the same in double precision. *)
From Coq Require Import ZArith List Bool Reals Lra Lia Permutation.
From Flocq Require Import Core.Core IEEE754.BinarySingleNaN.
From Verif Require Import Num Np NumFacts Float Spec_Float Utilities Spec_Utilities
  Proofs_Utilities Proofs_Utilities2.
Import ListNotations.

Lemma real_fin x : finite x -> real x = Fin (val x).
Proof. destruct x as [s|s| |s m e H]; unfold finite; simpl; intros; try discriminate; reflexivity. Qed.

Lemma Rltb_bool a b : Rlt_bool a b = Rltb a b.
Proof.
  unfold Rltb. destruct (Rlt_dec a b); [now apply Rlt_bool_true|apply Rlt_bool_false; lra].
Qed.
Lemma Rleb_bool a b : Rle_bool a b = Rleb a b.
Proof.
  unfold Rleb. destruct (Rle_dec a b); [now apply Rle_bool_true|apply Rle_bool_false; lra].
Qed.
Lemma Reqb_bool a b : Req_bool a b = Reqb a b.
Proof.
  unfold Reqb. destruct (Req_EM_T a b); [now apply Req_bool_true|now apply Req_bool_false].
Qed.

Lemma lt_finite a b : finite a -> finite b -> nltb a b = Rltb (val a) (val b).
Proof. intros A B. simpl. rewrite (Bltb_correct _ _ a b A B). apply Rltb_bool. Qed.
Lemma le_finite a b : finite a -> finite b -> nleb a b = Rleb (val a) (val b).
Proof. intros A B. simpl. rewrite (Bleb_correct _ _ a b A B). apply Rleb_bool. Qed.
Lemma eq_finite a b : finite a -> finite b -> neqb a b = Reqb (val a) (val b).
Proof. intros A B. simpl. rewrite (Beqb_correct _ _ a b A B). apply Reqb_bool. Qed.

Lemma finite_or x : finite x \/ x = B754_nan \/ exists s, x = B754_infinity s.
Proof. destruct x as [s|s| |s m e H]; unfold finite; simpl; eauto. Qed.

Ltac fcase x := destruct (finite_or x) as [?|[->|(?s & ->)]].

Lemma real_lt a b : nltb (real a) (real b) = nltb a b.
Proof.
  fcase a; fcase b.
  - rewrite !real_fin, lt_finite by assumption. reflexivity.
  - rewrite (real_fin a) by assumption. destruct a; reflexivity.
  - rewrite (real_fin a) by assumption. destruct a as [s'|s'| |s' m' e' H'], s; try reflexivity;
      discriminate.
  - rewrite (real_fin b) by assumption. reflexivity.
  - reflexivity.
  - destruct s; reflexivity.
  - rewrite (real_fin b) by assumption. destruct b as [s'|s'| |s' m' e' H'], s; try reflexivity;
      discriminate.
  - destruct s; reflexivity.
  - destruct s, s0; reflexivity.
Qed.

Lemma real_le a b : nleb (real a) (real b) = nleb a b.
Proof.
  fcase a; fcase b.
  - rewrite !real_fin, le_finite by assumption. reflexivity.
  - rewrite (real_fin a) by assumption. destruct a; reflexivity.
  - rewrite (real_fin a) by assumption. destruct a as [s'|s'| |s' m' e' H'], s; try reflexivity;
      discriminate.
  - rewrite (real_fin b) by assumption. reflexivity.
  - reflexivity.
  - destruct s; reflexivity.
  - rewrite (real_fin b) by assumption. destruct b as [s'|s'| |s' m' e' H'], s; try reflexivity;
      discriminate.
  - destruct s; reflexivity.
  - destruct s, s0; reflexivity.
Qed.

Lemma real_eq a b : neqb (real a) (real b) = neqb a b.
Proof.
  fcase a; fcase b.
  - rewrite !real_fin, eq_finite by assumption. reflexivity.
  - rewrite (real_fin a) by assumption. destruct a; reflexivity.
  - rewrite (real_fin a) by assumption. destruct a as [s'|s'| |s' m' e' H'], s; try reflexivity;
      discriminate.
  - rewrite (real_fin b) by assumption. reflexivity.
  - reflexivity.
  - destruct s; reflexivity.
  - rewrite (real_fin b) by assumption. destruct b as [s'|s'| |s' m' e' H'], s; try reflexivity;
      discriminate.
  - destruct s; reflexivity.
  - destruct s, s0; reflexivity.
Qed.

Lemma real_isnan a : nisnan (real a) = nisnan a.
Proof. destruct a as [s|[]| |s m e H]; reflexivity. Qed.
Lemma real_isfin a : nisfin (real a) = nisfin a.
Proof. destruct a as [s|[]| |s m e H]; reflexivity. Qed.

Lemma real_slt a b : slt (real a) (real b) = slt a b.
Proof. unfold slt. now rewrite real_lt, !real_isnan. Qed.

(* sorting commutes with any map that respects the comparison *)
Lemma insert_by_map {A B} (f : A -> B) (la : A -> A -> bool) (lb : B -> B -> bool) :
  (forall x y, lb (f x) (f y) = la x y) -> forall x l,
  insert_by lb (f x) (map f l) = map f (insert_by la x l).
Proof.
  intros E x l. induction l as [|y r IH]; [reflexivity|]. cbn [map insert_by]. rewrite E.
  destruct (la y x); [|reflexivity]. now rewrite IH.
Qed.
Lemma sort_by_map {A B} (f : A -> B) (la : A -> A -> bool) (lb : B -> B -> bool) :
  (forall x y, lb (f x) (f y) = la x y) -> forall l, sort_by lb (map f l) = map f (sort_by la l).
Proof.
  intros E l. induction l as [|y r IH]; [reflexivity|]. unfold sort_by in *. cbn [map fold_right].
  rewrite IH. now apply insert_by_map.
Qed.

Lemma combine_map_l {A B C} (f : A -> B) (l : list A) (m : list C) :
  combine (map f l) m = map (fun p => (f (fst p), snd p)) (combine l m).
Proof. revert m. induction l as [|a l IH]; intros [|c m]; try reflexivity. cbn. now rewrite IH. Qed.

Lemma argsort_real l : argsort (map real l) = argsort l.
Proof.
  unfold argsort. rewrite map_length, combine_map_l.
  rewrite (sort_by_map (fun p : f64 * nat => (real (fst p), snd p)) (fun p q => slt (fst p) (fst q)))
    by (intros; apply real_slt).
  rewrite map_map. reflexivity.
Qed.

Lemma np_sort_real l : np_sort (map real l) = map real (np_sort l).
Proof. unfold np_sort. apply sort_by_map. apply real_slt. Qed.

Lemma sorter_real ms ss : sorter (map real ms) (map real ss) = sorter ms ss.
Proof. unfold sorter. now rewrite <- map_app, argsort_real, !map_length. Qed.

Lemma map_real_fin l : Forall finite l -> map real l = map Fin (map val l).
Proof. intros F. rewrite map_map. induction F; [reflexivity|]. cbn. now rewrite real_fin, IHF. Qed.

(* ---- sorter in double precision ---- *)
Lemma sorter_ascending_f64 (bs ss : list f64) : Forall finite bs -> Forall finite ss ->
  ascending (map val ss) ->
  sorter bs ss = map (fun s => Z.of_nat (count_le (val s) (map val bs)) - 1)%Z ss.
Proof.
  intros Fb Fs A. rewrite <- sorter_real, !map_real_fin by assumption.
  rewrite (sorter_ascending _ _ A). now rewrite map_map.
Qed.

Lemma sorter_general_f64 (bs ss : list f64) : Forall finite bs -> Forall finite ss ->
  let r := sorter bs ss in
  length r = length ss
  /\ (forall i j, (i <= j < length r)%nat -> (nth i r 0 <= nth j r 0)%Z)
  /\ (forall z, In z r -> (-1 <= z <= Z.of_nat (length bs) - 1)%Z)
  /\ (forall ss', Permutation ss ss' -> sorter bs ss' = r).
Proof.
  intros Fb Fs r. subst r. rewrite <- sorter_real, !map_real_fin by assumption.
  destruct (sorter_general (map val bs) (map val ss)) as (A & B & C & D).
  rewrite !map_length in *. repeat split; try assumption; try apply B; try apply C; try assumption.
  intros ss' P. rewrite <- sorter_real.
  assert (Fs' : Forall finite ss') by (rewrite Forall_forall in *; intros x Hx; apply Fs;
    eapply Permutation_in; [symmetry; exact P|exact Hx]).
  rewrite !map_real_fin by assumption. apply D. now apply Permutation_map.
Qed.
