(* Lemmas about the numpy primitives of Np.v. *)
From Coq Require Import ZArith List Bool Lia Permutation Sorted.
From Verif Require Import Num Np NumFacts.
Import ListNotations.

(* ---- sorting ---- *)
Lemma insert_by_perm {A} (lt : A -> A -> bool) x l : Permutation (insert_by lt x l) (x :: l).
Proof.
  induction l as [|y l IH]; simpl; auto. destruct (lt y x); auto.
  rewrite IH. apply perm_swap.
Qed.

Lemma sort_by_perm {A} (lt : A -> A -> bool) l : Permutation (sort_by lt l) l.
Proof. induction l as [|x l IH]; simpl; auto. rewrite insert_by_perm. auto. Qed.

Lemma sort_by_length {A} (lt : A -> A -> bool) l : length (sort_by lt l) = length l.
Proof. apply Permutation_length, sort_by_perm. Qed.

Definition sorted_by {A} (lt : A -> A -> bool) (l : list A) : Prop :=
  StronglySorted (fun x y => lt y x = false) l.

Section SortBy.
  Context {A : Type} (lt : A -> A -> bool).
  Hypothesis Hasym : forall a b, lt a b = true -> lt b a = false.
  Hypothesis Hneg : forall a b c, lt b a = false -> lt c b = false -> lt c a = false.

  Lemma insert_by_sorted x l : sorted_by lt l -> sorted_by lt (insert_by lt x l).
  Proof.
    induction l as [|y l IH]; simpl; intros Hs.
    - repeat constructor.
    - inversion Hs; subst. destruct (lt y x) eqn:E.
      + constructor; [apply IH; auto|].
        rewrite Forall_forall in *. intros z Hz.
        apply (Permutation_in _ (insert_by_perm lt x l)) in Hz. destruct Hz as [<-|Hz]; auto.
      + constructor; auto. constructor; auto.
        rewrite Forall_forall in *. intros z Hz. eapply Hneg; eauto.
  Qed.

  Lemma sort_by_sorted l : sorted_by lt (sort_by lt l).
  Proof. induction l; simpl; [constructor|]. now apply insert_by_sorted. Qed.

  Lemma insert_by_head x l : (forall y, In y l -> lt y x = false) -> insert_by lt x l = x :: l.
  Proof. destruct l as [|y l]; simpl; intros Hl; auto. now rewrite Hl by auto. Qed.

  Lemma sort_by_id l : sorted_by lt l -> sort_by lt l = l.
  Proof.
    induction 1 as [|x l Hs IH Hx]; simpl; auto. rewrite IH.
    apply insert_by_head. now apply Forall_forall.
  Qed.
End SortBy.

Lemma sort_by_map {A B} (ltA : A -> A -> bool) (ltB : B -> B -> bool) (f : A -> B) l :
  (forall a b, ltB (f a) (f b) = ltA a b) -> map f (sort_by ltA l) = sort_by ltB (map f l).
Proof.
  intros Hf. induction l as [|x l IH]; simpl; auto. rewrite <- IH.
  generalize (sort_by ltA l). clear IH l. intros l.
  induction l as [|y l IH]; simpl; auto. rewrite Hf. destruct (ltA y x); simpl; auto. now rewrite IH.
Qed.

Lemma np_sort_perm {T} `{Num T} (l : list T) : Permutation (np_sort l) l.
Proof. apply sort_by_perm. Qed.

Lemma np_sort_length {T} `{Num T} (l : list T) : length (np_sort l) = length l.
Proof. apply sort_by_length. Qed.

Lemma np_sort_sorted {T} `{NumOrd T} (l : list T) : sorted_by slt (np_sort l).
Proof. apply sort_by_sorted; [apply slt_asym|apply slt_negtrans]. Qed.

Lemma map_snd_combine {A B} (a : list A) (b : list B) :
  length a = length b -> map snd (combine a b) = b.
Proof. revert b; induction a; destruct b; simpl; intros; try discriminate; auto. f_equal; auto. Qed.

Lemma map_fst_combine {A B} (a : list A) (b : list B) :
  length a = length b -> map fst (combine a b) = a.
Proof. revert b; induction a; destruct b; simpl; intros; try discriminate; auto. f_equal; auto. Qed.

Lemma argsort_perm {T} `{Num T} (l : list T) : Permutation (argsort l) (seq 0 (length l)).
Proof.
  unfold argsort. rewrite sort_by_perm. rewrite map_snd_combine; auto. now rewrite seq_length.
Qed.

Lemma argsort_length {T} `{Num T} (l : list T) : length (argsort l) = length l.
Proof. rewrite (Permutation_length (argsort_perm l)). apply seq_length. Qed.

Lemma combine_seq_nth {A} (d : A) l k p :
  In p (combine l (seq k (length l))) -> k <= snd p < k + length l /\ nth (snd p - k) l d = fst p.
Proof.
  revert k; induction l as [|x l IH]; simpl; intros k; [tauto|].
  intros [<-|Hp]; simpl.
  - split; [lia|]. now rewrite Nat.sub_diag.
  - apply IH in Hp as [H1 H2]. split; [lia|].
    destruct (snd p - k) eqn:E; [lia|]. replace n with (snd p - S k) by lia. auto.
Qed.

(* taking the values through argsort gives the sorted list *)
Lemma take_argsort {T} `{Num T} (d : T) (l : list T) : take d l (argsort l) = np_sort l.
Proof.
  unfold take, argsort, np_sort. rewrite map_map.
  rewrite (map_ext_in _ (fun p => fst p)).
  - rewrite (sort_by_map _ slt fst); auto. rewrite map_fst_combine; auto. now rewrite seq_length.
  - intros p Hp. apply (Permutation_in _ (sort_by_perm _ _)) in Hp.
    apply (combine_seq_nth d) in Hp as [_ Hp]. now rewrite Nat.sub_0_r in Hp.
Qed.

(* ---- argwhere ---- *)
Lemma argwhere_from_spec {A} (d : A) p l k i :
  In i (argwhere_from k p l) <-> k <= i < k + length l /\ p (nth (i - k) l d) = true.
Proof.
  revert k; induction l as [|x l IH]; intros k.
  - simpl. split; [tauto|lia].
  - assert (E : In i (argwhere_from k p (x :: l)) <->
                (i = k /\ p x = true) \/ In i (argwhere_from (S k) p l)).
    { simpl. destruct (p x) eqn:E; simpl; intuition congruence. }
    rewrite E, IH. clear E IH. cbn [length]. split.
    + intros [[-> Hp]|[Hr Hp]].
      * rewrite Nat.sub_diag. simpl. split; [lia|auto].
      * split; [lia|]. replace (i - k) with (S (i - S k)) by lia. auto.
    + intros [Hr Hp]. destruct (Nat.eq_dec i k) as [->|n].
      * rewrite Nat.sub_diag in Hp. simpl in Hp. auto.
      * right. split; [lia|]. replace (i - k) with (S (i - S k)) in Hp by lia. auto.
Qed.

Lemma argwhere_spec {A} (d : A) p l i :
  In i (argwhere p l) <-> i < length l /\ p (nth i l d) = true.
Proof. unfold argwhere. rewrite (argwhere_from_spec d), Nat.sub_0_r. intuition lia. Qed.

Lemma argwhere_from_sorted {A} p (l : list A) k : StronglySorted lt (argwhere_from k p l).
Proof.
  revert k; induction l as [|x l IH]; simpl; intros k; [constructor|].
  destruct (p x); auto. constructor; auto.
  apply Forall_forall. intros i Hi. apply (argwhere_from_spec x) in Hi. lia.
Qed.

Lemma argwhere_sorted {A} p (l : list A) : StronglySorted lt (argwhere p l).
Proof. apply argwhere_from_sorted. Qed.

Lemma sorted_lt_NoDup l : StronglySorted lt l -> NoDup l.
Proof.
  induction 1; constructor; auto. intros Hi. rewrite Forall_forall in H0. apply H0 in Hi. lia.
Qed.

Lemma argwhere_NoDup {A} p (l : list A) : NoDup (argwhere p l).
Proof. apply sorted_lt_NoDup, argwhere_sorted. Qed.

Lemma take_argwhere_from {A} (d : A) p l pre :
  take d (pre ++ l) (argwhere_from (length pre) p l) = filter p l.
Proof.
  revert pre; induction l as [|x l IH]; simpl; intros pre; auto.
  assert (E : argwhere_from (S (length pre)) p l = argwhere_from (length (pre ++ [x])) p l)
    by (rewrite app_length; simpl; f_equal; lia).
  destruct (p x); simpl.
  - rewrite app_nth2, Nat.sub_diag by lia. simpl. f_equal.
    rewrite E. specialize (IH (pre ++ [x])). rewrite <- app_assoc in IH. exact IH.
  - rewrite E. specialize (IH (pre ++ [x])). rewrite <- app_assoc in IH. exact IH.
Qed.

Lemma take_argwhere {A} (d : A) p l : take d l (argwhere p l) = filter p l.
Proof. apply (take_argwhere_from d p l []). Qed.

Lemma argwhere_length {A} p (l : list A) : length (argwhere p l) = length (filter p l).
Proof.
  destruct l as [|x l]; auto. rewrite <- (take_argwhere x p (x :: l)).
  unfold take. now rewrite map_length.
Qed.

(* ---- set_nth ---- *)
Lemma set_nth_length {A} i (x : A) l : length (set_nth i x l) = length l.
Proof. revert i; induction l; destruct i; simpl; auto. Qed.

Lemma nth_set_nth_eq {A} i (x d : A) l : i < length l -> nth i (set_nth i x l) d = x.
Proof. revert i; induction l; destruct i; simpl; intros; try lia; auto. apply IHl. lia. Qed.

Lemma nth_set_nth_neq {A} i j (x d : A) l : i <> j -> nth j (set_nth i x l) d = nth j l d.
Proof. revert i j; induction l; destruct i, j; simpl; intros; try lia; auto. Qed.
