From Coq Require Import String Ascii.
From Coq Require Import ZArith List Bool Lia Permutation Sorting.Sorted.
From Verif Require Import Num Np NumFacts NpFacts Helper MapProfile Mapping Spec_Mapping Proofs_Mapping.
Import ListNotations.
Local Open Scope nat_scope.

Lemma nth_map0 {A B} (f : A -> B) l i d e : i < length l -> nth i (map f l) d = f (nth i l e).
Proof. revert i. induction l as [|a l IH]; intros i Hi; cbn in *; [lia|]. destruct i; [reflexivity|]. apply IH. lia. Qed.

(* ---- loading a mapped file ---- *)
Section Load.
  Context {T : Type} `{Num T}.

  Lemma pad_padded k cols (m : matrix T) : length (m_cols m) = cols -> exists m', pad_rows k cols m = Ok m' /\ padded k m m'.
  Proof.
    intros L. unfold pad_rows. rewrite L, Nat.eqb_refl. eexists. split; [reflexivity|]. unfold padded. cbn [m_rows m_cols].
    rewrite map_length. repeat split. intros j Hj.
    now rewrite (nth_map0 _ _ j [] []).
  Qed.
  Lemma padded_0 (m : matrix T) : padded 0 m m.
  Proof. unfold padded. rewrite Nat.add_0_r. repeat split. intros. cbn. now rewrite app_nil_r. Qed.

  Lemma flat_ok (d : mapped T) : (forall k, In k setting_names -> exists v, lookup k (settings d) = Some v) ->
    exists flat, mapM (fun k => match lookup k (settings d) with Some v => Ok (k, v) | None => Raise KeyError end) setting_names = Ok flat /\
      map fst flat = setting_names /\ forall k, In k setting_names -> lookup k flat = lookup k (settings d).
  Proof.
    generalize setting_names. induction l as [|k l IH]; intros Hk; cbn [mapM].
    - exists []. repeat split. intros k [].
    - destruct (Hk k (or_introl eq_refl)) as [v Hv]. rewrite Hv. cbn [bind].
      destruct IH as (flat & -> & HF & HL); [intros; apply Hk; now right|]. cbn [bind]. exists ((k, v) :: flat). cbn [map fst].
      split; [reflexivity|]. split; [now f_equal|]. intros k' [<-|Hin].
      + rewrite Hv. unfold lookup. cbn [find fst]. now rewrite String.eqb_refl.
      + destruct (String.eqb k' k) eqn:EK.
        * apply String.eqb_eq in EK as ->. rewrite Hv. unfold lookup. cbn [find fst]. now rewrite String.eqb_refl.
        * rewrite <- HL by exact Hin. unfold lookup. cbn [find fst]. now rewrite EK.
  Qed.

  Theorem load_existing (d : mapped T) levels : well_formed d ->
    let k := if Nat.ltb (m_rows (la_mapped_sal d)) levels && negb (Nat.eqb (m_rows (la_mapped_sal d)) 0)
             then levels - m_rows (la_mapped_sal d) else 0 in
    exists d', load_variables (Some d) levels = Ok (mkState d' true (length (la_profile_no d))) /\
      padded k (la_ptmp d) (la_ptmp d') /\ padded k (la_mapped_sal d) (la_mapped_sal d') /\
      padded k (la_map_sal_errors d) (la_map_sal_errors d') /\ padded k (la_noise_sal d) (la_noise_sal d') /\
      padded k (la_signal_sal d) (la_signal_sal d') /\ la_profile_no d' = la_profile_no d /\
      (forall name, In name setting_names -> lookup name (settings d') = lookup name (settings d)) /\
      selected_hist d' = selected_hist d.
  Proof.
    intros (HS & L1 & L2 & L3 & L4 & L5) k. unfold load_variables.
    destruct (flat_ok d HS) as (flat & -> & _ & HF). cbn [bind].
    subst k. destruct (Nat.ltb _ _ && _).
    - rewrite L2. set (k := levels - m_rows (la_mapped_sal d)).
      destruct (pad_padded k _ (la_mapped_sal d) L2) as (m2 & -> & P2). cbn [bind].
      destruct (pad_padded k _ (la_map_sal_errors d) L3) as (m3 & -> & P3). cbn [bind].
      destruct (pad_padded k _ (la_noise_sal d) L4) as (m4 & -> & P4). cbn [bind].
      destruct (pad_padded k _ (la_signal_sal d) L5) as (m5 & -> & P5). cbn [bind].
      destruct (pad_padded k _ (la_ptmp d) L1) as (m1 & -> & P1). cbn [bind].
      eexists. split; [reflexivity|].
      cbn [la_ptmp la_mapped_sal la_map_sal_errors la_noise_sal la_signal_sal la_profile_no settings selected_hist]. tauto.
    - cbn [bind]. rewrite L2. eexists. split; [reflexivity|].
      cbn [la_ptmp la_mapped_sal la_map_sal_errors la_noise_sal la_signal_sal la_profile_no settings selected_hist].
      repeat split; try apply padded_0; auto; intros; cbn; now rewrite app_nil_r.
  Qed.

  Theorem load_missing_setting (d : mapped T) levels name : In name setting_names -> lookup name (settings d) = None ->
    load_variables (Some d) levels = Raise KeyError.
  Proof.
    intros Hin HL. unfold load_variables.
    assert (E : mapM (fun k => match lookup k (settings d) with Some v => Ok (k, v) | None => Raise KeyError end) setting_names = Raise KeyError).
    { revert Hin. generalize setting_names. induction l as [|k l IH]; intros Hin; [destruct Hin|]. cbn [mapM].
      destruct Hin as [->|Hin]; [now rewrite HL|]. destruct (lookup k (settings d)); [|reflexivity]. cbn [bind]. now rewrite IH. }
    now rewrite E.
  Qed.

  Variable values : list T.
  Variable levels : nat.
  Variable calc : nat -> res (nat -> res (option (level_out T))).
  Variable qs : list T -> list nat.

  Definition unknown (no : list T) (p : T) : Prop := forall q, In q no -> neqb q p = false.

  Theorem incremental_crash (d : mapped T) nos p : well_formed d -> In p nos -> unknown (la_profile_no d) p ->
    run values levels calc qs (Some d) nos = Raise AttributeError.
  Proof.
    intros WF Hp Hu. unfold run. destruct (load_existing d levels WF) as (d' & -> & _ & _ & _ & _ & _ & EN & _). cbn [bind st_data].
    rewrite EN. assert (HM : missing_profile_index (la_profile_no d) nos <> []).
    { unfold missing_profile_index. apply (In_nth _ _ nnan) in Hp as (j & Hj & Ej). intros C.
      assert (In j (argwhere (fun p => negb (existsb (fun q => neqb q p) (la_profile_no d))) nos)).
      { apply (argwhere_spec nnan). split; [exact Hj|]. rewrite Ej. apply negb_true_iff, not_true_iff_false. intros B.
        apply existsb_exists in B as (q & Hq & B). rewrite Hu in B by exact Hq. discriminate. }
      rewrite C in H0. destruct H0. }
    destruct (missing_profile_index _ _) as [|i r]; [congruence|]. cbn [foldM]. unfold add_profile at 1. cbn [st_data st_index st_arrays].
    rewrite EN. unfold np_insert. rewrite Nat.leb_refl. reflexivity.
  Qed.

  Theorem nothing_missing (d : mapped T) nos : well_formed d -> (forall p, In p nos -> exists q, In q (la_profile_no d) /\ neqb q p = true) ->
    run values levels calc qs (Some d) nos = let* s := load_variables (Some d) levels in finish qs (st_data s).
  Proof.
    intros WF HA. unfold run. destruct (load_existing d levels WF) as (d' & -> & _ & _ & _ & _ & _ & EN & _). cbn [bind st_data].
    rewrite EN. assert (HM : missing_profile_index (la_profile_no d) nos = []).
    { unfold missing_profile_index. destruct (argwhere _ _) as [|i r] eqn:EA; [reflexivity|]. exfalso.
      assert (Hi : In i (argwhere (fun p => negb (existsb (fun q => neqb q p) (la_profile_no d))) nos)) by (rewrite EA; now left).
      apply (argwhere_spec nnan) in Hi as [Hi Hn]. destruct (HA (nth i nos nnan)) as (q & Hq & Eq); [now apply nth_In|].
      apply negb_true_iff in Hn. assert (existsb (fun q => neqb q (nth i nos nnan)) (la_profile_no d) = true) by (apply existsb_exists; eauto).
      congruence. }
    rewrite HM. reflexivity.
  Qed.
End Load.

(* ---- permutations ---- *)
Lemma sorted_unique (a b : list nat) : StronglySorted lt a -> StronglySorted lt b -> (forall x, In x a <-> In x b) -> a = b.
Proof.
  revert b. induction a as [|x a IH]; intros b HA HB HI.
  - destruct b as [|y b]; [reflexivity|]. exfalso. apply (HI y). now left.
  - destruct b as [|y b]; [exfalso; apply (HI x); now left|].
    apply StronglySorted_inv in HA as [HA FA]. apply StronglySorted_inv in HB as [HB FB]. rewrite Forall_forall in FA, FB.
    assert (x = y).
    { destruct (proj1 (HI x) (or_introl eq_refl)) as [<-|H1]; [reflexivity|].
      destruct (proj2 (HI y) (or_introl eq_refl)) as [->|H2]; [reflexivity|]. apply FB in H1. apply FA in H2. lia. }
    subst y. f_equal. apply IH; auto. intros z. split; intros Hz.
    + destruct (proj1 (HI z) (or_intror Hz)) as [<-|]; [|assumption]. apply FA in Hz. lia.
    + destruct (proj2 (HI z) (or_intror Hz)) as [<-|]; [|assumption]. apply FB in Hz. lia.
Qed.
Lemma seq_sorted n : forall a, StronglySorted lt (seq a n).
Proof.
  induction n; intros a; cbn; constructor; [apply IHn|]. apply Forall_forall. intros x Hx. apply in_seq in Hx. lia.
Qed.
Lemma monotone_sorted (l : list nat) : (forall i j, i < j < length l -> nth i l 0 < nth j l 0) -> StronglySorted lt l.
Proof.
  induction l as [|x l IH]; intros Hm; constructor.
  - apply IH. intros i j Hij. apply (Hm (S i) (S j)). cbn. lia.
  - apply Forall_forall. intros y Hy. apply (In_nth _ _ 0) in Hy as (j & Hj & <-). apply (Hm 0 (S j)). cbn. lia.
Qed.
Lemma perm_seq_id idx n : Permutation idx (seq 0 n) -> (forall i j, i < j < n -> nth i idx 0 < nth j idx 0) -> idx = seq 0 n.
Proof.
  intros HP Hm. apply sorted_unique.
  - apply monotone_sorted. rewrite (Permutation_length HP), seq_length. exact Hm.
  - apply seq_sorted.
  - intros x. split; intros Hx; [apply (Permutation_in _ HP Hx)|apply (Permutation_in _ (Permutation_sym HP) Hx)].
Qed.
Lemma perm_bound idx n : Permutation idx (seq 0 n) -> forall j, j < n -> nth j idx 0 < n.
Proof.
  intros HP j Hj. assert (Hi : In (nth j idx 0) idx) by (apply nth_In; rewrite (Permutation_length HP), seq_length; exact Hj).
  apply (Permutation_in _ HP), in_seq in Hi. lia.
Qed.
Lemma perm_inj idx n : Permutation idx (seq 0 n) -> forall i j, i < n -> j < n -> nth i idx 0 = nth j idx 0 -> i = j.
Proof.
  intros HP i j Hi Hj E. assert (ND : NoDup idx) by (apply (Permutation_NoDup (Permutation_sym HP)), seq_NoDup).
  rewrite NoDup_nth in ND. apply ND; [| |exact E]; rewrite (Permutation_length HP), seq_length; assumption.
Qed.
Lemma rearranged_seq {A} (d : A) l : rearranged d (seq 0 (length l)) l = l.
Proof. unfold rearranged. induction l as [|x l IH]; [reflexivity|]. cbn. f_equal. rewrite <- seq_shift, map_map. exact IH. Qed.
Lemma rearranged_nth {A} (d : A) idx l j : j < length idx -> nth j (rearranged d idx l) d = nth (nth j idx 0) l d.
Proof.
  intros Hj. unfold rearranged. now rewrite (nth_map0 _ _ j d 0).
Qed.
Lemma rearranged_map {A B} (f : A -> B) d idx l : rearranged (f d) idx (map f l) = map f (rearranged d idx l).
Proof. unfold rearranged. rewrite map_map. apply map_ext. intros i. now rewrite map_nth. Qed.
Lemma rearranged_perm {A} (d : A) idx l : Permutation idx (seq 0 (length l)) -> Permutation (rearranged d idx l) l.
Proof. intros HP. rewrite <- (rearranged_seq d l) at 2. unfold rearranged. now apply Permutation_map. Qed.
Lemma sort_by_ext {A} (lt1 lt2 : A -> A -> bool) l : (forall a b, In a l -> In b l -> lt1 a b = lt2 a b) -> sort_by lt1 l = sort_by lt2 l.
Proof.
  assert (I : forall x l, (forall a b, In a (x :: l) -> In b (x :: l) -> lt1 a b = lt2 a b) -> insert_by lt1 x l = insert_by lt2 x l).
  { intros x l'. induction l' as [|y r IH]; intros He; cbn; [reflexivity|]. rewrite He by (cbn; auto). rewrite IH; [reflexivity|].
    intros a b Ha Hb. apply He; cbn in *; tauto. }
  induction l as [|x l IH]; intros He; [reflexivity|]. cbn.
  change (fold_right (insert_by lt1) [] l) with (sort_by lt1 l). change (fold_right (insert_by lt2) [] l) with (sort_by lt2 l).
  rewrite IH by (intros; apply He; now right). apply I. intros a b Ha Hb.
  apply He; [destruct Ha as [Ha|Ha]|destruct Hb as [Hb|Hb]]; try (now left); right;
    (apply (Permutation_in _ (sort_by_perm lt2 l)); assumption).
Qed.
