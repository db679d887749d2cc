From Coq Require Import String Ascii.
From Coq Require Import ZArith List Bool Reals Lra Lia Permutation Sorting.Sorted.
From Verif Require Import Num Np NumFacts NpFacts Helper Mapping Spec_Mapping Proofs_Mapping Proofs_Mapping2 Proofs_Mapping3 Config Spec_Config.
Import ListNotations.
Local Open Scope nat_scope.

(* ---- load ---- *)
Definition literal (bounds : value) : list (string * value) :=
  match fst (load []) with [_; _; _; ODict l; _] => map (fun e => if String.eqb (fst e) "THETA_BOUNDS" then (fst e, bounds) else e) l | _ => [] end.
Definition sorted_literal (bounds : value) : list (string * value) :=
  match fst (load []) with [_; _; _; _; ODict l] => map (fun e => if String.eqb (fst e) "THETA_BOUNDS" then (fst e, bounds) else e) l | _ => [] end.
Definition block (n : nat) : heap :=
  [OList [VInt 0; VInt 5]; OList [VInt 5; VInt 20]; OList [VRef n; VRef (n + 1)]; ODict (literal (VRef (n + 2))); ODict (sorted_literal (VRef (n + 2)))].

Lemma load_value h : load h = ((h ++ block (length h))%list, VRef (length h + 4)).
Proof.
  unfold load, alloc. cbn [items]. rewrite !app_length. cbn [length]. 
  replace (length h + 1 + 1)%nat with (length h + 2)%nat by lia.
  replace (length h + 2 + 1)%nat with (length h + 3)%nat by lia.
  replace (length h + 3 + 1)%nat with (length h + 4)%nat by lia.
  rewrite <- !app_assoc. cbn [app].
  rewrite nth_error_app2 by lia. replace (length h + 3 - length h)%nat with 3 by lia. cbn [nth_error].
  unfold block. generalize (VRef (length h + 2)) as b. intros b. reflexivity.
Qed.

Lemma reads_step h o x : x < length h -> (forall c, o <> Assign x c) -> nth_error (step h o) x = nth_error h x /\ length h <= length (step h o).
Proof.
  intros Hx Hn. destruct o as [|a c]; cbn [step].
  - rewrite load_value. cbn [fst]. rewrite nth_error_app1, app_length by exact Hx. split; [reflexivity|lia].
  - split.
    + assert (a <> x) by (intros ->; now apply (Hn c)). clear Hn. revert a x H Hx. induction h as [|y h IH]; intros a x H Hx; [cbn in Hx; lia|].
      destruct a, x; cbn [set_nth nth_error]; try congruence; try reflexivity. apply IH; cbn in Hx; lia.
    + rewrite set_nth_length. lia.
Qed.
Lemma reads_execute ops : forall h x, x < length h -> (forall c, ~ In (Assign x c) ops) -> nth_error (execute ops h) x = nth_error h x.
Proof.
  induction ops as [|o ops IH]; intros h x Hx Hn; [reflexivity|]. cbn [execute fold_left].
  destruct (reads_step h o x Hx) as [E L]. { intros c ->. apply (Hn c). now left. }
  unfold execute in IH. rewrite IH; [exact E|lia|]. intros c C. apply (Hn c). now right.
Qed.

Theorem load_pure ops1 ops2 : let h1 := execute ops1 [] in let h2 := fst (load h1) in
  leaves (length h1) (length h2) ops2 ->
  exists a, snd (load h1) = VRef a /\ length h1 <= a < length h2 /\ reads (execute ops2 h2) (VRef a) (TDict parameters).
Proof.
  cbv zeta. set (h := execute ops1 []). clearbody h. rewrite load_value. cbn [fst snd]. intros HL. exists (length h + 4).
  split; [reflexivity|]. rewrite app_length in *. cbn [block length] in *. split; [lia|].
  assert (R : forall k o, nth_error (block (length h)) k = Some o -> nth_error (execute ops2 (h ++ block (length h))%list) (length h + k) = Some o).
  { intros k o E. assert (Hk : k < 5) by (change 5 with (length (block (length h))); apply nth_error_Some; congruence).
    rewrite reads_execute.
    - rewrite nth_error_app2 by lia. now replace (length h + k - length h)%nat with k by lia.
    - rewrite app_length. cbn [block length]. lia.
    - intros c C. apply (HL _ _ C). lia. }
  set (h' := execute ops2 _) in *. clearbody h'.
  pose proof (R 0 _ eq_refl) as R0. pose proof (R 1 _ eq_refl) as R1. pose proof (R 2 _ eq_refl) as R2. pose proof (R 4 _ eq_refl) as R4.
  rewrite Nat.add_0_r in R0.
  apply (reads_dict _ _ _ _ R4).
  unfold sorted_literal, parameters. cbn [load alloc fst app]. vm_compute sort_by.
  repeat (apply Forall2_cons; [split; [reflexivity|]; cbn [snd]; try (constructor; fail)|]); [|apply Forall2_nil].
  apply (reads_list _ _ _ _ R2). constructor; [|constructor; [|constructor]].
  - apply (reads_list _ _ _ _ R0). repeat constructor.
  - apply (reads_list _ _ _ _ R1). repeat constructor.
Qed.
Lemma parameters_sorted : StronglySorted key_lt parameters.
Proof. repeat (apply SSorted_cons; [|repeat (apply Forall_cons; [reflexivity|]); apply Forall_nil]). apply SSorted_nil. Qed.

(* ---- print_cfg ---- *)
Lemma one_line_app s t : one_line (s ++ t) = one_line s && one_line t.
Proof. induction s as [|c s IH]; [reflexivity|]. cbn. now rewrite IH, andb_assoc. Qed.
Lemma spaces_line n : one_line (spaces n) = true.
Proof. induction n as [|n IH]; [reflexivity|]. exact IH. Qed.
Lemma spaces_blank n : all_blank (spaces n) = true.
Proof. induction n as [|n IH]; [reflexivity|]. exact IH. Qed.
Lemma spaces_length n : String.length (spaces n) = n.
Proof. induction n as [|n IH]; [reflexivity|]. cbn. now rewrite IH. Qed.
Lemma lines_line s t : one_line s = true -> lines (s ++ newline ++ t) = s :: lines t.
Proof.
  induction s as [|c s IH]; intros Hs; [reflexivity|]. cbn in Hs. apply andb_true_iff in Hs as [Hc Hs].
  cbn. apply negb_true_iff in Hc. rewrite Hc. specialize (IH Hs). cbn in IH. now rewrite IH.
Qed.
Lemma append_assoc s t u : ((s ++ t) ++ u = s ++ t ++ u)%string.
Proof. induction s as [|c s IH]; [reflexivity|]. cbn. now rewrite IH. Qed.
Lemma length_append s t : String.length (s ++ t) = String.length s + String.length t.
Proof. induction s as [|c s IH]; [reflexivity|]. cbn. now rewrite IH. Qed.

Section Print.
  Context {V : Type}.
  Variable show : V -> string.
  Theorem printed cfg : (forall k v, In (k, v) cfg -> one_line k = true /\ one_line (show v) = true) ->
    exists ls, lines (print_cfg show cfg) = ("" :: ls ++ [""])%string%list /\
      Forall2 (fun e l => exists blanks, all_blank blanks = true /\ l = (blanks ++ fst e ++ ": " ++ show (snd e))%string /\
                          String.length (blanks ++ fst e) = Nat.max 30 (String.length (fst e))) cfg ls.
  Proof.
    intros Hc. exists (map (fun e => (pad_left 30 (fst e) ++ ": " ++ show (snd e))%string) cfg). split.
    - unfold print_cfg. change (lines (newline ++ ?t)%string) with (""%string :: lines t). f_equal.
      induction cfg as [|[k v] cfg IH]; [reflexivity|]. cbn [map fold_right fst snd].
      destruct (Hc k v (or_introl eq_refl)) as [Hk Hv].
      rewrite <- (append_assoc _ ": "), <- (append_assoc _ (show v)), append_assoc, lines_line.
      + rewrite IH by (intros k' v' Hin; apply Hc; now right). cbn [app]. f_equal. now rewrite append_assoc.
      + unfold pad_left. rewrite !one_line_app, spaces_line, Hk, Hv. reflexivity.
    - induction cfg as [|e cfg IH]; [constructor|]. constructor; [|apply IH; intros k v Hin; apply Hc; now right].
      exists (spaces (30 - String.length (fst e))). split; [apply spaces_blank|]. split; [unfold pad_left; now rewrite append_assoc|].
      rewrite length_append, spaces_length. lia.
  Qed.
End Print.
