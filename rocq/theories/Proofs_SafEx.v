(* Cases for the theorems about the frontal criterion, over integers with a missing value. *)
From Coq Require Import ZArith List Bool Lia Sorting.Sorted.
From Verif Require Import Num Np Fetchers Saf Spec_Saf Spec_Saf2 Proofs_Saf2 DemoNum.
Import ListNotations.

(* a reading that returns the first value *)
Definition first_value (x : ZN) (xp fp : list ZN) : ZN := hd None fp.
Definition same4 (s p a b : ZN) : ZN := s.
Definition same2 (s t : ZN) : ZN := t.
Definition same3 (s t p : ZN) : ZN := t.
Definition col4 (a b c d : Z) : list ZN := [Some a; Some b; Some c; Some d].
Definition warm : gcast ZN := mkGcast (col4 34 34 34 34) (col4 6 6 6 6) (col4 100 200 400 500) (Some (-40))%Z (Some 10)%Z (Some 2010)%Z (Some 3000)%Z.
Definition cold : gcast ZN := mkGcast (col4 34 34 34 34) (col4 2 2 2 2) (col4 100 200 400 500) (Some (-41))%Z (Some 11)%Z (Some 2011)%Z (Some 4000)%Z.
(* deeper than 300 in the last row only *)
Definition warm_short : gcast ZN := mkGcast (col4 34 34 34 34) (col4 6 6 6 6) (col4 100 200 250 400) (Some (-42))%Z (Some 12)%Z (Some 2012)%Z (Some 4000)%Z.
Definition warm_float : float_profile ZN := mkFloat (Some (-45))%Z (col4 100 200 400 500) (col4 6 6 6 6) (col4 34 34 34 34).
Definition mild_float : float_profile ZN := mkFloat (Some (-45))%Z (col4 100 200 400 500) (col4 4 4 4 4) (col4 34 34 34 34).
Definition front : saf_profile ZN :=
  mkSaf (col4 0 0 34 34) (col4 0 0 40 40) (col4 0 0 1 1) (col4 0 0 1 1) (col4 0 0 1 1) (col4 0 0 1 1)
        (col4 0 0 4 4) (col4 0 0 4 4) (col4 0 50 200 300).

Definition rep_b (ps : list ZN) : bool := existsb (fun d => neqb d (nofZ 0)) (np_diff ps).
Lemma rep_b_false ps : rep_b ps = false -> ~ repeats ps.
Proof.
  intros E (a & x & y & b & -> & R). unfold rep_b in E.
  assert (HI : In (nsub y x) (np_diff (a ++ x :: y :: b))).
  { unfold np_diff. apply in_map_iff. exists (x, y). split; [reflexivity|].
    induction a as [|a0 [|a1 a] IH]; cbn; auto.
    right. apply IH. unfold np_diff in *. cbn in E |- *. apply orb_false_iff in E as [_ E]. exact E. }
  assert (X : existsb (fun d => neqb d (nofZ 0)) (np_diff (a ++ x :: y :: b)) = true)
    by (apply existsb_exists; exists (nsub y x); split; assumption).
  congruence.
Qed.
Lemma regular_b (k : gcast ZN) : length (k_sal k) = length (k_pres k) -> length (k_ptmp k) = length (k_pres k) ->
  rep_b (map (at_ (k_pres k)) (isok_of k)) = false -> regular k.
Proof.
  intros A B C. split; [exact A|]. split; [exact B|]. intros idx L. apply lists_levels_unique in L as ->. now apply rep_b_false.
Qed.

Lemma float_case fl : rep_b (usable_pres fl) = false ->
  (2 <? length (usable_pres fl))%nat && around_300 (usable_pres fl) = true ->
  ~ repeats (usable_pres fl) /\ spans_300 (usable_pres fl).
Proof.
  intros A B. split; [now apply rep_b_false|]. apply andb_prop in B as [B C]. apply andb_prop in C as [C D].
  apply Nat.ltb_lt in B. now split.
Qed.

Theorem kept_case : nltb (fl_lat warm_float) (nofZ (-30)) = true /\ ~ repeats (usable_pres warm_float) /\
  spans_300 (usable_pres warm_float) /\ on_side 1 (float_t300 first_value warm_float) /\ Forall regular [warm; cold; warm_short] /\
  frontal_constraint_saf first_value same4 same2 same3 front (grid_of [warm; cold; warm_short] []) warm_float = Ok (grid_of [warm] []).
Proof.
  destruct (float_case warm_float eq_refl eq_refl) as [A B].
  split; [reflexivity|]. split; [exact A|]. split; [exact B|]. split; [left; split; reflexivity|]. split.
  - repeat constructor; apply regular_b; vm_compute; reflexivity.
  - vm_compute. reflexivity.
Qed.

(* warm at every level, from 100 to 400 dbar, and yet not kept by a warm float *)
Theorem last_row_case : exists k, In k [warm_short] /\ length (k_pres k) = 4%nat /\
  (forall i, (i < 4)%nat -> nltb (nofZ 5) (at_ (k_ptmp k) i) = true) /\ spans_300 (k_pres k) /\
  frontal_constraint_saf first_value same4 same2 same3 front (grid_of [warm_short] []) warm_float = Ok (grid_of [] []).
Proof.
  exists warm_short. split; [now left|]. split; [reflexivity|]. split.
  - intros i Hi. do 4 (destruct i as [|i]; [reflexivity|]). lia.
  - split; [split; [cbn; lia|split; reflexivity]|vm_compute; reflexivity].
Qed.

Theorem envelope_case : ~ repeats (usable_pres mild_float) /\ spans_300 (usable_pres mild_float) /\
  (forall c, ~ on_side c (float_t300 first_value mild_float)) /\ crit_saf first_value front mild_float = Ok (-1)%Z.
Proof.
  destruct (float_case mild_float eq_refl eq_refl) as [A B]. split; [exact A|]. split; [exact B|]. split.
  - intros c [[_ X]|(_ & X & _)]; vm_compute in X; discriminate.
  - vm_compute. reflexivity.
Qed.
