(* Inputs used in the examples of Properties_Finders.v *)
From Coq Require Import ZArith List Bool Reals Lra Lia Permutation Sorted.
From Verif Require Import Num Np NumFacts NpFacts Finders Spec_Utilities Spec_Finders Proofs_Utilities Proofs_Besthist Proofs_Besthist2.
Import ListNotations.
Local Open Scope R_scope.

(* the stable argsort is one of the admitted sorts *)
Lemma argsort_is_ok : argsort_ok (@argsort XR _).
Proof.
  intros l. split; [apply argsort_perm|]. intros vs -> i j Hij. rewrite map_length in Hij.
  destruct (np_sort_R vs) as (vs' & E & Hp & Hs).
  pose proof (take_argsort (Fin 0) (map Fin vs)) as T. rewrite E in T.
  assert (Hlt : forall a, (a < length vs)%nat -> nth (nth a (argsort (map Fin vs)) 0%nat) vs 0 = nth a vs' 0).
  { intros a Ha. assert (La : length (argsort (map Fin vs)) = length vs) by (rewrite argsort_length; apply map_length).
    assert (Hn : (nth a (argsort (map Fin vs)) 0 < length vs)%nat).
    { pose proof (argsort_perm (map Fin vs)) as P. rewrite map_length in P.
      assert (In (nth a (argsort (map Fin vs)) 0%nat) (seq 0 (length vs))).
      { eapply Permutation_in; [exact P|]. apply nth_In. lia. } apply in_seq in H. lia. }
    assert (Lv : length vs' = length vs) by (now apply Permutation_length).
    apply (f_equal (fun l => nth a l (Fin 0))) in T. unfold take in T.
    rewrite (nth_map _ _ _ _ 0%nat) in T by lia. rewrite (nth_map Fin _ _ _ 0) in T by lia.
    rewrite (nth_map Fin _ _ _ 0) in T by lia. now injection T. }
  rewrite !Hlt by lia. assert (Lv : length vs' = length vs) by (now apply Permutation_length).
  apply ascending_sorted in Hs. apply Hs. lia.
Qed.

Definition plain_problem : problem := mkProblem 30 0 2000 1000 1 1 1 1 2 2 10 10 0.
Lemma plain_in : inside_list plain_problem pv_grid [0;1;2;3]%nat.
Proof.
  split; [repeat constructor|]. intros i. split.
  - intros Hi. assert (Hl : (i < 4)%nat) by (simpl in Hi; lia). split; [exact Hl|].
    assert (E : vorticity_distance2 2 0 0 = 0) by (unfold vorticity_distance2; destruct (Req_EM_T 0 0); lra).
    destruct i as [|[|[|[|]]]]; [| | | |lia]; unfold inside, ellipse2, vort_cast, vort_float; cbn; rewrite E; lra.
  - intros [Hl _]. simpl in Hl. simpl. lia.
Qed.
Lemma plain_scales : scales_ok plain_problem.
Proof.
  unfold scales_ok. cbn [plain_problem b_latL b_latS b_longL b_longS b_ageL b_ageS b_phiL b_phiS b_z].
  repeat (split; [lra|]). discriminate.
Qed.
