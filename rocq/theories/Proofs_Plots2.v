(* sal_var_plot: which samples are blanked, and the values on a level *)
From Coq Require Import String ZArith List Bool Reals Lia Lra FunctionalExtensionality.
From Verif Require Import Num Np NumFacts NpFacts Finders Spec_Finders Proofs_Finders Proofs_Thetas Proofs_Thetas2 Pyplot Plots Spec_Plots.
Import ListNotations.
Local Open Scope nat_scope.

Notation omat := (nat -> nat -> option R).
Definition hideM (h : nat -> nat -> bool) (m : omat) : omat := fun i j => if h i j then None else m i j.
Record oseven : Type := mkOSeven { o1 : omat; o2 : omat; o3 : omat; o4 : omat; o5 : omat; o6 : omat; o7 : omat }.
Definition oS (s : oseven) : @seven XR := mkSeven (oM (o1 s)) (oM (o2 s)) (oM (o3 s)) (oM (o4 s)) (oM (o5 s)) (oM (o6 s)) (oM (o7 s)).
Definition hide7 (h : nat -> nat -> bool) (s : oseven) : oseven :=
  mkOSeven (hideM h (o1 s)) (hideM h (o2 s)) (hideM h (o3 s)) (hideM h (o4 s)) (hideM h (o5 s)) (hideM h (o6 s)) (hideM h (o7 s)).

Lemma blank_oM h m : blank h (oM m) = oM (hideM h m).
Proof. extensionality i; extensionality j. unfold blank, oM, hideM. destruct (h i j); reflexivity. Qed.
Lemma blank_oS h s : map_seven (blank h) (oS s) = oS (hide7 h s).
Proof. unfold map_seven, oS, hide7. cbn. now rewrite !blank_oM. Qed.
Lemma hide_hide h g s : hide7 g (hide7 h s) = hide7 (fun i j => h i j || g i j) s.
Proof.
  unfold hide7, hideM. destruct s as [a b c d e f k]. cbn.
  f_equal; extensionality i; extensionality j; destruct (h i j), (g i j); reflexivity.
Qed.
Lemma hide_none s : hide7 (fun _ _ => false) s = s.
Proof. destruct s; reflexivity. Qed.

Lemma where2_in nr nc p i j : In (i, j) (where2 nr nc p) <-> i < nr /\ j < nc /\ p i j = true.
Proof.
  unfold where2. rewrite filter_In, in_flat_map. cbn [fst snd]. split.
  - intros [(i' & Hi & Hm) Hp]. apply in_map_iff in Hm as (j' & E & Hj). injection E as -> ->.
    apply in_seq in Hi, Hj. lia || (repeat split; try lia; assumption).
  - intros (Hi & Hj & Hp). split; [|assumption]. exists i. split; [apply in_seq; lia|]. apply in_map_iff. exists j.
    split; [reflexivity|apply in_seq; lia].
Qed.

Section Blanked.
  Variables (d : series) (nr nc : nat).
  Variable s : oseven.
  Hypothesis Hpres : o1 s = d_pres d.
  Hypothesis Hptmp : o3 s = d_ptmp d.

  Definition lab (i j : nat) : bool := match d_la d i j with None => true | Some _ => false end.
  Definition tout (i j : nat) : bool := negb (lab i j) && disc (d_tlt d) (d_tgt d) (d_ptmp d i j).
  Definition ub : bool := match d_tlt d, d_tgt d with Some _, None => true | _, _ => false end.
  Definition rowsb (p : nat -> nat -> bool) (i : nat) : bool :=
    existsb (fun q => Nat.eqb i (fst q) || Nat.eqb i (snd q)) (where2 nr nc p).
  Definition htb (i j : nat) : bool := if ub then tout i j else rowsb tout i.
  Definition pout (i j : nat) : bool := negb (lab i j) && negb (htb i j) && disc (d_plt d) (d_pgt d) (d_pres d i j).
  Definition hb (i j : nat) : bool := lab i j || htb i j || rowsb pout i.
  Definition rows_ok (p : nat -> nat -> bool) : bool := forallb (fun q => Nat.ltb (fst q) nr && Nat.ltb (snd q) nr) (where2 nr nc p).

  Lemma disc_nan lt gt : disc lt gt None = false.
  Proof. apply disc_spec. discriminate. Qed.
  Lemma disc_iff lt gt o : disc lt gt o = true <-> outside lt gt o.
  Proof.
    unfold outside. split.
    - intros E. destruct o as [x|]; [|rewrite disc_nan in E; discriminate]. exists x. split; [reflexivity|]. intros Hw.
      assert (disc lt gt (Some x) = false) by (apply disc_spec; intros y [= <-]; exact Hw). congruence.
    - intros (x & -> & Hn). destruct (disc lt gt (Some x)) eqn:E; [reflexivity|]. exfalso. apply Hn. now apply (proj1 (disc_spec _ _ _) E).
  Qed.

  Lemma blanked_eval :
    blanked nr nc (oM (d_la d)) (option_map Fin (d_tlt d)) (option_map Fin (d_tgt d)) (option_map Fin (d_plt d)) (option_map Fin (d_pgt d)) (oS s) =
    if (ub || rows_ok tout) && rows_ok pout then Ok (oS (hide7 hb s)) else Raise IndexError.
  Proof.
    unfold blanked.
    assert (E0 : (fun i j => nisnan (oM (d_la d) i j)) = lab).
    { extensionality i; extensionality j. unfold oM, lab. destruct (d_la d i j); reflexivity. }
    rewrite E0, blank_oS.
    assert (Et : theta_pass nr nc (option_map Fin (d_tlt d)) (option_map Fin (d_tgt d)) (oS (hide7 lab s)) =
                 if ub || rows_ok tout then Ok (oS (hide7 (fun i j => lab i j || htb i j) s)) else Raise IndexError).
    { assert (Ep : (fun i j => discard (option_map Fin (d_tlt d)) (option_map Fin (d_tgt d)) (v_ptmp (oS (hide7 lab s)) i j)) = tout).
      { extensionality i; extensionality j. cbn [v_ptmp oS hide7 o3]. rewrite Hptmp. unfold tout, hideM, oM. destruct (lab i j).
        - exact (disc_nan _ _).
        - reflexivity. }
      unfold theta_pass. rewrite Ep. unfold blank_rows. fold (rows_ok tout). rewrite !blank_oS, !hide_hide. fold (rowsb tout). unfold htb, ub.
      destruct (d_tlt d) as [l|] eqn:E1, (d_tgt d) as [g|] eqn:E2; cbn [option_map orb].
      - destruct (rows_ok tout); reflexivity.
      - reflexivity.
      - destruct (rows_ok tout); reflexivity.
      - assert (Ef : tout = fun _ _ => false).
        { extensionality i; extensionality j. unfold tout. rewrite E1, E2. destruct (negb (lab i j)); [|reflexivity].
          destruct (disc None None (d_ptmp d i j)) eqn:E; [|reflexivity]. apply disc_iff in E as (x & _ & Hn). exfalso. apply Hn. exact I. }
        assert (Ew : where2 nr nc tout = []).
        { rewrite Ef. unfold where2. clear. induction (flat_map _ _); cbn; auto. }
        unfold rows_ok, rowsb. rewrite Ew. cbn. do 3 f_equal. extensionality i; extensionality j. now rewrite orb_false_r. }
    rewrite Et. destruct (ub || rows_ok tout); [|reflexivity]. cbn [bind andb].
    assert (Ep : (fun i j => discard (option_map Fin (d_plt d)) (option_map Fin (d_pgt d)) (v_pres (oS (hide7 (fun i j => lab i j || htb i j) s)) i j)) = pout).
    { extensionality i; extensionality j. cbn [v_pres oS hide7 o1]. rewrite Hpres. unfold pout, hideM, oM. destruct (lab i j); cbn [orb negb andb].
      - exact (disc_nan _ _).
      - destruct (htb i j); cbn [negb andb]; [exact (disc_nan _ _)|reflexivity]. }
    unfold pres_pass. rewrite Ep. unfold blank_rows. fold (rows_ok pout). rewrite !blank_oS, !hide_hide. fold (rowsb pout).
    assert (Eh : (fun i j => lab i j || htb i j || rowsb pout i) = hb) by reflexivity.
    destruct (d_plt d) as [l|] eqn:E1, (d_pgt d) as [g|] eqn:E2; cbn [option_map].
    - destruct (rows_ok pout); reflexivity.
    - destruct (rows_ok pout); reflexivity.
    - destruct (rows_ok pout); reflexivity.
    - assert (Ef : pout = fun _ _ => false).
      { extensionality i; extensionality j. unfold pout. rewrite E1, E2. destruct (negb (lab i j) && negb (htb i j)); [|reflexivity].
        destruct (disc None None (d_pres d i j)) eqn:E; [|reflexivity]. apply disc_iff in E as (x & _ & Hn). exfalso. apply Hn. exact I. }
      assert (Ew : where2 nr nc pout = []).
      { rewrite Ef. unfold where2. clear. induction (flat_map _ _); cbn; auto. }
      unfold rows_ok, rowsb. rewrite Ew. cbn. do 3 f_equal. extensionality i; extensionality j. unfold hb, rowsb. rewrite Ew. cbn. now rewrite orb_false_r.
  Qed.

  (* ---- the booleans ---- *)
  Lemma lab_iff i j : lab i j = false <-> d_la d i j <> None.
  Proof. unfold lab. destruct (d_la d i j); split; congruence. Qed.
  Lemma tout_iff i j : tout i j = true <-> theta_out d i j.
  Proof. unfold tout, theta_out. now rewrite andb_true_iff, negb_true_iff, lab_iff, disc_iff. Qed.
  Lemma ub_iff : ub = true <-> upper_only d.
  Proof. unfold ub, upper_only. destruct (d_tlt d), (d_tgt d); split; try (intros [? ?]); try split; congruence. Qed.
  Lemma rowsb_iff p i : rowsb p i = true <-> exists i' j', i' < nr /\ j' < nc /\ p i' j' = true /\ (i = i' \/ i = j').
  Proof.
    unfold rowsb. rewrite existsb_exists. split.
    - intros ([i' j'] & Hin & E). apply where2_in in Hin as (Hi & Hj & Hp). cbn [fst snd] in E. apply orb_true_iff in E.
      rewrite !Nat.eqb_eq in E. exists i', j'. auto.
    - intros (i' & j' & Hi & Hj & Hp & E). exists (i', j'). split; [apply where2_in; auto|]. cbn [fst snd]. apply orb_true_iff. now rewrite !Nat.eqb_eq.
  Qed.
  Lemma htb_iff i j : htb i j = true <-> hidden_theta d nr nc i j.
  Proof.
    unfold htb, hidden_theta. destruct ub eqn:E.
    - apply ub_iff in E. rewrite tout_iff. split; [intros Ht; left; auto|]. intros [[_ Ht]|[Hn _]]; [assumption|contradiction].
    - assert (Hn : ~ upper_only d) by (rewrite <- ub_iff; congruence). rewrite rowsb_iff. split.
      + intros (i' & j' & Hi & Hj & Ht & Eq). right. split; [assumption|]. exists i', j'. rewrite tout_iff in Ht. auto.
      + intros [[Hu _]|(_ & i' & j' & Hi & Hj & Ht & Eq)]; [contradiction|]. exists i', j'. rewrite tout_iff. auto.
  Qed.
  Lemma htb_false i j : htb i j = false <-> ~ hidden_theta d nr nc i j.
  Proof. rewrite <- htb_iff. destruct (htb i j); split; congruence. Qed.
  Lemma pout_iff i j : pout i j = true <-> pres_out d nr nc i j.
  Proof. unfold pout, pres_out. rewrite !andb_true_iff, !negb_true_iff, lab_iff, htb_false, disc_iff. tauto. Qed.
  Lemma hb_iff i j : hb i j = false <-> shown d nr nc i j.
  Proof.
    unfold hb, shown. rewrite !orb_false_iff, lab_iff, htb_false.
    assert (rowsb pout i = false <-> ~ hidden_pres d nr nc i).
    { unfold hidden_pres. destruct (rowsb pout i) eqn:E.
      - apply rowsb_iff in E as (i' & j' & Hi & Hj & Hp & Eq). rewrite pout_iff in Hp. split; [discriminate|]. intros Hn. exfalso. apply Hn. exists i', j'. auto.
      - split; [|reflexivity]. intros _ (i' & j' & Hi & Hj & Hp & Eq). assert (rowsb pout i = true); [|congruence].
        apply rowsb_iff. exists i', j'. rewrite pout_iff. auto. }
    tauto.
  Qed.
  Lemma rows_ok_iff p : rows_ok p = true <-> forall i' j', i' < nr -> j' < nc -> p i' j' = true -> j' < nr.
  Proof.
    unfold rows_ok. rewrite forallb_forall. split.
    - intros Ha i' j' Hi Hj Hp. specialize (Ha (i', j')). rewrite where2_in in Ha. specialize (Ha ltac:(auto)). cbn [fst snd] in Ha.
      apply andb_true_iff in Ha as [_ Ha]. now apply Nat.ltb_lt in Ha.
    - intros Ha [i' j'] Hin. apply where2_in in Hin as (Hi & Hj & Hp). cbn [fst snd]. apply andb_true_iff. rewrite !Nat.ltb_lt. eauto.
  Qed.
  Lemma ok_iff : (ub || rows_ok tout) && rows_ok pout = true <-> ~ no_such_row d nr nc.
  Proof.
    rewrite andb_true_iff, orb_true_iff, !rows_ok_iff, ub_iff. unfold no_such_row. split.
    - intros [Ht Hp] (i' & j' & Hi & [Hj1 Hj2] & [[Hn Hto]|Hpo]).
      + destruct Ht as [Hu|Ht]; [contradiction|]. apply tout_iff in Hto. specialize (Ht i' j' Hi Hj2 Hto). lia.
      + apply pout_iff in Hpo. specialize (Hp i' j' Hi Hj2 Hpo). lia.
    - intros Hn. split.
      + destruct ub eqn:E; [left; now apply ub_iff|]. right. intros i' j' Hi Hj Ht.
        destruct (Nat.lt_ge_cases j' nr); [assumption|]. exfalso. apply Hn. exists i', j'. split; [assumption|]. split; [lia|]. left.
        split; [rewrite <- ub_iff; congruence|now apply tout_iff].
      + intros i' j' Hi Hj Hp. destruct (Nat.lt_ge_cases j' nr); [assumption|]. exfalso. apply Hn. exists i', j'.
        split; [assumption|]. split; [lia|]. right. now apply pout_iff.
  Qed.
End Blanked.
