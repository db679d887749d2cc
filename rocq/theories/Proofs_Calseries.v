From Coq Require Import String Ascii.
From Coq Require Import ZArith List Bool Reals Lra Lia Permutation Sorting.Sorted.
From Verif Require Import Num Np NumFacts NpFacts Helper Mapping Spec_Mapping Proofs_Mapping Proofs_Mapping2 Proofs_Mapping3 Config Spec_Config.
Import ListNotations.
Local Open Scope nat_scope.

(* ---- the profiles without data ---- *)
Section Data.
  Context {T : Type} `{Num T}.
  Lemma no_values_spec c : no_values c = true <-> ~ has_value c.
  Proof.
    unfold no_values. rewrite Nat.eqb_eq. split.
    - intros E (x & Hx & Nx). apply (In_nth _ _ nnan) in Hx as (i & Hi & Ei).
      assert (In i (argwhere (fun x => negb (nisnan x)) c)) by (apply (argwhere_spec nnan); split; [lia|now rewrite Ei, Nx]).
      destruct (argwhere _ c); [destruct H0|discriminate].
    - intros Hn. destruct (argwhere (fun x => negb (nisnan x)) c) as [|i l] eqn:E; [reflexivity|exfalso]. apply Hn.
      assert (Hi : In i (argwhere (fun x => negb (nisnan x)) c)) by (rewrite E; now left).
      apply (argwhere_spec nnan) in Hi as [Hi Hp]. exists (nth i c nnan). split; [now apply nth_In|].
      now apply negb_true_iff in Hp.
  Qed.
  Definition no_data (src : cal_source T) (i : nat) : bool :=
    no_values (nth i (cs_sal src) []) || no_values (nth i (cs_temp src) []) || no_values (nth i (cs_pres src) []).
  Lemma no_data_spec src i : no_data src i = true <-> ~ has_data src i.
  Proof.
    unfold no_data, has_data. rewrite !orb_true_iff, !no_values_spec. split; [tauto|].
    intros Hn. destruct (no_values (nth i (cs_sal src) [])) eqn:A; [apply no_values_spec in A; tauto|].
    destruct (no_values (nth i (cs_temp src) [])) eqn:B; [apply no_values_spec in B; tauto|].
    destruct (no_values (nth i (cs_pres src) [])) eqn:C; [apply no_values_spec in C; tauto|].
    exfalso. apply Hn. unfold no_values in *. rewrite Nat.eqb_neq in A, B, C.
    assert (G : forall c, length (argwhere (fun x => negb (nisnan x)) c) <> 0 -> has_value c).
    { intros c Hc. destruct (argwhere (fun x => negb (nisnan x)) c) as [|k l] eqn:E; [now elim Hc|].
      assert (Hi : In k (argwhere (fun x => negb (nisnan x)) c)) by (rewrite E; now left).
      apply (argwhere_spec nnan) in Hi as [Hi Hp]. exists (nth k c nnan). split; [now apply nth_In|now apply negb_true_iff in Hp]. }
    auto.
  Qed.
  Lemma no_data_false src i : no_data src i = false <-> has_data src i.
  Proof.
    destruct (no_data src i) eqn:E; split; intros Hd; try discriminate; try reflexivity.
    - now apply no_data_spec in E.
    - unfold no_data in E. rewrite !orb_false_iff in E. destruct E as [[A B] C].
      assert (G : forall c, no_values c = false -> has_value c).
      { intros c Hc. unfold no_values in Hc. rewrite Nat.eqb_neq in Hc.
        destruct (argwhere (fun x => negb (nisnan x)) c) as [|k l] eqn:E; [now elim Hc|].
        assert (Hi : In k (argwhere (fun x => negb (nisnan x)) c)) by (rewrite E; now left).
        apply (argwhere_spec nnan) in Hi as [Hi Hp]. exists (nth k c nnan). split; [now apply nth_In|now apply negb_true_iff in Hp]. }
      repeat split; auto.
  Qed.

  Lemma column_ok (a : list (list T)) i : i < length a -> column a i = Ok (nth i a []).
  Proof. intros Hi. unfold column. now rewrite (nth_error_nth' a [] Hi). Qed.

  Definition flag_at (src : cal_source T) (n : nat) (z : T) (i : nat) (x : T) : T := if Nat.ltb i n && no_data src i then z else x.
  Lemma flag_profiles_value src k : complete src -> forall s c, s + k <= length c -> s + k <= length (cs_no src) ->
    exists c', flag_profiles src c (seq s k) = Ok c' /\ length c' = length c /\
      forall j, nth j c' nnan = if Nat.leb s j && Nat.ltb j (s + k) && no_data src j then nofZ 0 else nth j c nnan.
  Proof.
    intros (C1 & C2 & C3). induction k as [|k IH]; intros s c Hc Hs.
    - exists c. split; [reflexivity|]. split; [reflexivity|]. intros j.
      destruct (Nat.leb_spec s j), (Nat.ltb_spec j (s + 0)); try reflexivity; lia.
    - cbn [seq flag_profiles]. unfold flag_profile. rewrite !column_ok by lia. cbn [bind].
      fold (no_data src s). destruct (no_data src s) eqn:D.
      + destruct (Nat.ltb_spec s (length c)) as [_|]; [|lia]. cbn [bind].
        destruct (IH (S s) (set_nth s (nofZ 0) c)) as (c' & E & L & N); [rewrite set_nth_length; lia|lia|].
        exists c'. split; [exact E|]. split; [rewrite L; apply set_nth_length|]. intros j. rewrite N.
        destruct (Nat.eq_dec j s) as [->|Hj].
        * rewrite nth_set_nth_eq by lia. rewrite D.
          destruct (Nat.leb_spec (S s) s), (Nat.leb_spec s s), (Nat.ltb_spec s (s + S k)); try lia; reflexivity.
        * rewrite nth_set_nth_neq by lia.
          destruct (Nat.leb_spec (S s) j), (Nat.leb_spec s j), (Nat.ltb_spec j (s + S k)), (Nat.ltb_spec j (S s + k)); try lia; reflexivity.
      + cbn [bind]. destruct (IH (S s) c) as (c' & E & L & N); [lia|lia|].
        exists c'. split; [exact E|]. split; [exact L|]. intros j. rewrite N.
        destruct (Nat.eq_dec j s) as [->|Hj].
        * rewrite D, !andb_false_r. reflexivity.
        * destruct (Nat.leb_spec (S s) j), (Nat.leb_spec s j), (Nat.ltb_spec j (s + S k)), (Nat.ltb_spec j (S s + k)); try lia; reflexivity.
  Qed.

  (* ---- a profile missing from the file ---- *)
  Theorem missing_profile qs src file i : i < length (cs_no src) -> cf_percent file <> None ->
    (forall x, In x (cf_no file) -> neqb x (nth i (cs_no src) nnan) = false) ->
    set_calseries qs src (Some file) = Raise AttributeError.
  Proof.
    intros Hi Hp Hm. unfold set_calseries. destruct (cf_percent file) eqn:E; [|congruence]. cbn [bind].
    destruct (Nat.eqb_spec (length (argwhere (fun p => negb (existsb (fun q => neqb q p) (cf_no file))) (cs_no src))) 0) as [E0|]; [exfalso|reflexivity].
    assert (Ha : In i (argwhere (fun p => negb (existsb (fun q => neqb q p) (cf_no file))) (cs_no src))).
    { apply (argwhere_spec nnan). split; [exact Hi|]. apply negb_true_iff. destruct (existsb _ (cf_no file)) eqn:X; [|reflexivity].
      apply existsb_exists in X as (x & Hx & Ex). now rewrite (Hm x Hx) in Ex. }
    destruct (argwhere _ (cs_no src)); [destruct Ha|discriminate].
  Qed.
  Theorem missing_percent qs src file : cf_percent file = None -> set_calseries qs src (Some file) = Raise KeyError.
  Proof. intros E. unfold set_calseries. now rewrite E. Qed.
End Data.

Lemma indexed {A} (d : A) (l : list A) idx : Permutation idx (seq 0 (length l)) -> index_array d l idx = Ok (take d l idx).
Proof.
  intros HP. unfold index_array. replace (forallb _ idx) with true; [reflexivity|]. symmetry. apply forallb_forall.
  intros i Hi. apply Nat.ltb_lt. apply (Permutation_in _ HP), in_seq in Hi. lia.
Qed.

Lemma fst_nth (es : list (R * R)) k : nth k (map fst es) 0%R = fst (nth k es (0, 0)%R).
Proof. exact (map_nth fst es (0, 0)%R k). Qed.

(* ---- reals ---- *)
Section Calseries.
  Variable qs : list XR -> list nat.
  Hypothesis HS : sorting qs.
  Variable rs : list R.
  Hypothesis ND : NoDup rs.
  Variable src : cal_source XR.
  Hypothesis HN : cs_no src = map Fin rs.
  Hypothesis HC : complete src.

  Definition flag_entry (i : nat) (e : R * R) : R * R := (fst e, if Nat.ltb i (length rs) && no_data src i then 0%R else snd e).
  Definition flagged (es : list (R * R)) : list (R * R) := map (fun i => flag_entry i (nth i es (0, 0)%R)) (seq 0 (length es)).
  Lemma flagged_length es : length (flagged es) = length es.
  Proof. unfold flagged. now rewrite map_length, seq_length. Qed.
  Lemma flagged_nth es i : i < length es -> nth i (flagged es) (0, 0)%R = flag_entry i (nth i es (0, 0)%R).
  Proof.
    intros Hi. unfold flagged. rewrite (nth_map0 _ _ i (0, 0)%R 0) by now rewrite seq_length. now rewrite seq_nth.
  Qed.
  Lemma flagged_fst es : map fst (flagged es) = map fst es.
  Proof.
    unfold flagged. rewrite map_map. cbn [flag_entry fst]. transitivity (map fst (rearranged (0, 0)%R (seq 0 (length es)) es)); [unfold rearranged; now rewrite map_map|now rewrite rearranged_seq].
  Qed.

  Lemma no_missing nos : incl rs nos ->
    argwhere (fun p => negb (existsb (fun q => neqb q p) (map Fin nos))) (cs_no src) = [].
  Proof.
    intros HI. destruct (argwhere _ (cs_no src)) as [|i l] eqn:E; [reflexivity|exfalso].
    assert (Ha : In i (argwhere (fun p => negb (existsb (fun q => neqb q p) (map Fin nos))) (cs_no src))) by (rewrite E; now left).
    apply (argwhere_spec (nnan : XR)) in Ha as [Hi Hp]. rewrite HN, map_length in Hi. apply negb_true_iff in Hp.
    rewrite HN in Hp. rewrite (nth_map0 Fin _ i nnan 0%R) in Hp by exact Hi.
    enough (existsb (fun q => neqb q (Fin (nth i rs 0%R))) (map Fin nos) = true) by congruence.
    apply existsb_exists. exists (Fin (nth i rs 0%R)). split; [apply in_map, HI, nth_In, Hi|].
    cbn. unfold Reqb. now destruct (Req_EM_T _ _).
  Qed.

  Lemma check_bound_row (b : list (list XR)) : check_bound b = one_row b.
  Proof. destruct b as [|x [|y b]]; reflexivity. Qed.
  Lemma one_row_single b : single b -> one_row b = b.
  Proof. destruct b as [|x [|y b]]; [reflexivity..|]. unfold single. cbn. lia. Qed.
  Lemma one_row_idem (b : list (list XR)) : single (one_row b).
  Proof. unfold single. destruct b as [|x [|y b]]; cbn; lia. Qed.
  Lemma reset_single o : bounds_single o -> reset o = o.
  Proof. intros (A & B & C & D). unfold reset. rewrite !one_row_single by assumption. now destruct o. Qed.
  Lemma reset_bounds_single o : bounds_single (reset o).
  Proof. repeat split; apply one_row_idem. Qed.

  Definition arrange (es : list (R * R)) : list (R * R) := rearranged (0, 0)%R (qs (map Fin (map fst es))) es.

  Lemma covering_length (es : list (R * R)) : NoDup (map fst es) -> incl rs (map fst es) -> length rs <= length es.
  Proof. intros _ HI. rewrite <- (map_length fst es). now apply NoDup_incl_length. Qed.

  Theorem existing_value es o : NoDup (map fst es) -> incl rs (map fst es) ->
    set_calseries qs src (Some (file_of es o)) = Ok (file_of (flagged (arrange es)) (reset o)).
  Proof.
    intros NE HI. pose proof (covering_length es NE HI) as HL.
    unfold set_calseries. cbn [file_of cf_percent cf_no cf_calseries cf_breaks cf_max_breaks cf_theta_lt cf_theta_gt cf_pres_lt cf_pres_gt bind].
    rewrite <- (map_map fst Fin), <- (map_map snd Fin).
    rewrite (no_missing (map fst es) HI). cbn [length Nat.eqb negb].
    pose proof (qs_perm qs HS (map fst es)) as HP. set (idx := qs (map Fin (map fst es))) in *.
    rewrite map_length in HP.
    rewrite !indexed by (rewrite !map_length; exact HP). cbn [bind].
    assert (T1 : forall f : R * R -> R, take nnan (map Fin (map f es)) idx = map Fin (map f (rearranged (0, 0)%R idx es))).
    { intros f. change (take nnan (map Fin (map f es)) idx) with (rearranged (NaN : XR) idx (map Fin (map f es))).
      rewrite rearranged_fin by (rewrite map_length; exact HP). f_equal. rewrite <- rearranged_map. apply rearranged_dflt.
      intros i Hi. rewrite map_length. apply (Permutation_in _ HP), in_seq in Hi. lia. }
    rewrite !T1, !check_bound_row. fold (arrange es) in *. change (rearranged (0, 0)%R idx es) with (arrange es).
    assert (LA : length (arrange es) = length es).
    { unfold arrange, rearranged. rewrite map_length. fold idx. rewrite (Permutation_length HP). apply seq_length. }
    destruct (flag_profiles_value src (length (cs_no src)) HC 0 (map Fin (map snd (arrange es)))) as (c' & E & L & N).
    { rewrite !map_length, HN, map_length. lia. }
    { lia. }
    rewrite E. cbn [bind]. f_equal. unfold file_of, reset. cbn. rewrite <- (map_map fst Fin), flagged_fst. f_equal.
    apply (nth_ext _ _ nnan nnan).
    { rewrite L, !map_length, flagged_length. reflexivity. }
    intros j Hj. rewrite L, !map_length in Hj. rewrite N.
    rewrite (nth_map0 _ _ j nnan (0, 0)%R) by (rewrite flagged_length; exact Hj). rewrite flagged_nth by exact Hj.
    rewrite map_map, (nth_map0 _ _ j nnan (0, 0)%R) by exact Hj. unfold flag_entry. cbn [snd].
    replace (Nat.ltb j (0 + length (cs_no src))) with (Nat.ltb j (length rs)) by (now rewrite HN, map_length).
    cbn [Nat.leb andb]. destruct (Nat.ltb j (length rs) && no_data src j); [|reflexivity]. cbn. f_equal.
  Qed.

  Lemma arrange_spec es : NoDup (map fst es) -> Permutation (arrange es) es /\ increasing (map fst (arrange es)).
  Proof.
    intros NE. pose proof (qs_perm qs HS (map fst es)) as HP. unfold arrange. split.
    - apply rearranged_perm. now rewrite map_length in HP.
    - rewrite <- rearranged_map. cbn [fst]. now apply sorted_numbers.
  Qed.

  Theorem existing_file es o : NoDup (map fst es) -> incl rs (map fst es) ->
    exists es', set_calseries qs src (Some (file_of es o)) = Ok (file_of es' (reset o)) /\
      Permutation (map fst es') (map fst es) /\ ascends (map fst es') /\
      (forall j, j < length es' -> let e := nth j es' (0, 0)%R in
         j < length rs /\ ~ has_data src j /\ snd e = 0%R \/ (length rs <= j \/ has_data src j) /\ In e es) .
  Proof.
    intros NE HI. exists (flagged (arrange es)). split; [now apply existing_value|].
    destruct (arrange_spec es NE) as [P A]. rewrite flagged_fst.
    split; [now apply Permutation_map|]. split; [exact A|].
    intros j Hj. rewrite flagged_length in Hj. cbn zeta. rewrite flagged_nth by exact Hj. unfold flag_entry.
    destruct (Nat.ltb_spec j (length rs)) as [L|L]; cbn [andb].
    - destruct (no_data src j) eqn:D.
      + left. apply no_data_spec in D. auto.
      + right. apply no_data_false in D. split; [auto|]. rewrite <- surjective_pairing. apply (Permutation_in _ P), nth_In, Hj.
    - right. split; [auto|]. rewrite <- surjective_pairing. apply (Permutation_in _ P), nth_In, Hj.
  Qed.

  Lemma increasing_nodup l : increasing l -> NoDup l.
  Proof.
    intros HI. apply (NoDup_nth l 0%R). intros i j Hi Hj E. destruct (Nat.lt_trichotomy i j) as [G|[G|G]]; [|exact G|].
    - specialize (HI i j ltac:(lia)). lra.
    - specialize (HI j i ltac:(lia)). lra.
  Qed.
  Lemma increasing_perm l l' : increasing l -> increasing l' -> Permutation l l' -> l = l'.
  Proof.
    intros A B P.
    assert (G : forall x, increasing x -> Sorted.StronglySorted Rlt x).
    { clear. intros x. induction x as [|a x IH]; intros HI; constructor.
      - apply IH. intros i j Hij. apply (HI (S i) (S j)). cbn. lia.
      - apply Forall_forall. intros y Hy. apply (In_nth _ _ 0%R) in Hy as (k & Hk & <-). apply (HI 0 (S k)). cbn. lia. }
    apply G in A, B. clear G. revert l' B P. induction A as [|a l A IH F]; intros l' B P.
    - now apply Permutation_nil in P.
    - destruct B as [|b l' B F']; [now apply Permutation_sym, Permutation_nil in P|].
      assert (E : a = b).
      { pose proof (Permutation_in a P (or_introl eq_refl)) as [->|H1]; [reflexivity|].
        pose proof (Permutation_in b (Permutation_sym P) (or_introl eq_refl)) as [->|H2]; [reflexivity|].
        rewrite Forall_forall in F, F'. specialize (F b H2). specialize (F' a H1). lra. }
      subst b. f_equal. apply IH; [exact B|]. now apply Permutation_cons_inv in P.
  Qed.

  (* the file has exactly the source's profiles, which are numbered upwards *)
  Theorem existing_kept es o : ascends rs -> Permutation (map fst es) rs ->
    exists es', set_calseries qs src (Some (file_of es o)) = Ok (file_of es' (reset o)) /\ map fst es' = rs /\
      forall p, p < length rs -> (has_data src p -> In (nth p rs 0%R, snd (nth p es' (0, 0)%R)) es) /\
                                 (~ has_data src p -> snd (nth p es' (0, 0)%R) = 0%R).
  Proof.
    intros A P. assert (NE : NoDup (map fst es)) by (eapply Permutation_NoDup; [symmetry; exact P|exact ND]).
    destruct (existing_file es o NE) as (es' & E & P' & A' & F).
    { intros x Hx. now apply (Permutation_in _ (Permutation_sym P)). }
    exists es'. split; [exact E|].
    assert (EF : map fst es' = rs) by (apply increasing_perm; [exact A'|exact A|now rewrite P']).
    split; [exact EF|]. intros p Hp.
    assert (Hp' : p < length es') by (rewrite <- (map_length fst es'), EF; exact Hp).
    specialize (F p Hp'). cbn zeta in F.
    assert (Ef : fst (nth p es' (0, 0)%R) = nth p rs 0%R).
    { rewrite <- EF. symmetry. apply fst_nth. }
    split; intros D; destruct F as [(_ & D' & Z)|([?|D'] & Hin)]; try tauto; try lia.
    rewrite <- Ef, <- surjective_pairing. exact Hin.
  Qed.

  (* ---- repeated calls ---- *)
  Theorem existing_again es o : NoDup (map fst es) -> incl rs (map fst es) -> ascends (map fst es) -> bounds_single o ->
    (forall j, j < length rs -> ~ has_data src j -> snd (nth j es (0, 0)%R) = 0%R) ->
    set_calseries qs src (Some (file_of es o)) = Ok (file_of es o).
  Proof.
    intros NE HI A B Z. rewrite existing_value by assumption. rewrite reset_single by exact B.
    assert (EA : arrange es = es).
    { unfold arrange. rewrite (increasing_index qs HS) by exact A. rewrite map_length. apply rearranged_seq. }
    rewrite EA. f_equal. f_equal. apply (nth_ext _ _ (0, 0)%R (0, 0)%R); [apply flagged_length|].
    intros j Hj. rewrite flagged_length in Hj. rewrite flagged_nth by exact Hj. unfold flag_entry.
    destruct (Nat.ltb_spec j (length rs)) as [L|L]; cbn [andb]; [|now rewrite <- surjective_pairing].
    destruct (no_data src j) eqn:D; [|now rewrite <- surjective_pairing].
    apply no_data_spec in D. specialize (Z j L D). destruct (nth j es (0, 0)%R) as [a b]. cbn in Z |- *. now rewrite Z.
  Qed.
  Theorem existing_twice es o f : NoDup (map fst es) -> incl rs (map fst es) ->
    set_calseries qs src (Some (file_of es o)) = Ok f -> set_calseries qs src (Some f) = Ok f.
  Proof.
    intros NE HI E. rewrite existing_value in E by assumption. apply (f_equal (fun r => match r with Ok x => x | Raise _ => f end)) in E. cbn beta iota in E. subst f.
    destruct (arrange_spec es NE) as [P A].
    apply existing_again; rewrite ?flagged_fst.
    - eapply Permutation_NoDup; [symmetry; apply Permutation_map, P|exact NE].
    - intros x Hx. eapply Permutation_in; [symmetry; apply Permutation_map, P|]. now apply HI.
    - exact A.
    - apply reset_bounds_single.
    - intros j Hj D. rewrite flagged_nth.
      + unfold flag_entry. apply no_data_spec in D. rewrite D. destruct (Nat.ltb_spec j (length rs)); [reflexivity|lia].
      + rewrite (Permutation_length P). pose proof (covering_length es NE HI). lia.
  Qed.

  (* ---- no file ---- *)
  Definition ones : list (R * R) := map (fun r => (r, 1%R)) rs.
  Lemma fresh_existing : set_calseries qs src None = set_calseries qs src (Some (file_of ones default_settings)).
  Proof.
    assert (Eh : (nq 1 2 : XR) = Fin (1 / 2)) by (apply nq_fin; lia).
    unfold set_calseries, file_of, ones, default_settings. rewrite Eh, !map_map.
    cbn [cf_percent cf_no cf_calseries cf_breaks cf_max_breaks cf_theta_lt cf_theta_gt cf_pres_lt cf_pres_gt bind
         o_breaks o_max o_tlt o_tgt o_plt o_pgt o_percent fst snd]. rewrite HN, !map_map. reflexivity.
  Qed.
  Lemma ones_fst : map fst ones = rs.
  Proof. unfold ones. rewrite map_map. apply map_id. Qed.

  Theorem fresh_file : exists es, set_calseries qs src None = Ok (file_of es default_settings) /\
    Permutation (map fst es) rs /\ ascends (map fst es) /\
    forall j, j < length rs -> (has_data src j -> snd (nth j es (0, 0)%R) = 1%R) /\ (~ has_data src j -> snd (nth j es (0, 0)%R) = 0%R).
  Proof.
    rewrite fresh_existing. destruct (existing_file ones default_settings) as (es & E & P & A & F); rewrite ?ones_fst; [exact ND|apply incl_refl|].
    exists es. rewrite reset_single in E by (repeat split; unfold single; cbn; lia). rewrite ones_fst in P.
    split; [exact E|]. split; [exact P|]. split; [exact A|]. intros j Hj.
    assert (Hj' : j < length es) by (rewrite <- (map_length fst es), (Permutation_length P); exact Hj).
    specialize (F j Hj'). cbn zeta in F. split; intros D; destruct F as [(_ & D' & Z)|([?|D'] & Hin)]; try tauto; try lia.
    unfold ones in Hin. apply in_map_iff in Hin as (x & E1 & _). now rewrite <- E1.
  Qed.

  (* the flag recorded under a profile number *)
  Theorem fresh_correct : ascends rs ->
    exists es, set_calseries qs src None = Ok (file_of es default_settings) /\ map fst es = rs /\
      forall p, p < length rs -> (has_data src p -> snd (nth p es (0, 0)%R) = 1%R) /\ (~ has_data src p -> snd (nth p es (0, 0)%R) = 0%R).
  Proof.
    intros A. destruct fresh_file as (es & E & P & A' & F). exists es. split; [exact E|]. split; [now apply increasing_perm|]. exact F.
  Qed.

  Lemma filter_nth_lt l r : increasing l -> In r l -> nth (length (filter (fun x => if Rlt_dec x r then true else false) l)) l 0%R = r.
  Proof.
    induction l as [|a l IH]; intros HI Hr; [destruct Hr|].
    assert (HI' : increasing l) by (intros i j Hij; apply (HI (S i) (S j)); cbn; lia).
    assert (HA : forall y, In y l -> (a < y)%R).
    { intros y Hy. apply (In_nth _ _ 0%R) in Hy as (k & Hk & <-). apply (HI 0 (S k)). cbn. lia. }
    cbn [filter]. destruct (Rlt_dec a r) as [L|L].
    - cbn [length nth]. apply IH; [exact HI'|]. destruct Hr as [->|Hr]; [lra|exact Hr].
    - destruct Hr as [->|Hr]; [|specialize (HA r Hr); lra].
      replace (filter _ l) with (@nil R); [reflexivity|]. symmetry. clear IH HI HI' L. induction l as [|b l IH]; [reflexivity|].
      cbn [filter]. destruct (Rlt_dec b r) as [G|G]; [specialize (HA b (or_introl eq_refl)); lra|].
      apply IH. intros y Hy. apply HA. now right.
  Qed.
  Lemma rank_nth l r : increasing l -> Permutation l rs -> In r rs -> nth (rank rs r) l 0%R = r.
  Proof.
    intros HI P Hr. unfold rank. replace (length (filter _ rs)) with (length (filter (fun x => if Rlt_dec x r then true else false) l)).
    - apply filter_nth_lt; [exact HI|]. now apply (Permutation_in _ (Permutation_sym P)).
    - clear -P. generalize rs, P. clear P. intros l' P. induction P; cbn [filter]; [reflexivity|..].
      + destruct (Rlt_dec x r); cbn [length]; lia.
      + destruct (Rlt_dec x r), (Rlt_dec y r); cbn [length]; lia.
      + lia.
  Qed.
  Lemma rank_lt r : In r rs -> rank rs r < length rs.
  Proof.
    intros Hr. unfold rank. clear ND HN. induction rs as [|a l IH]; [destruct Hr|]. cbn [filter length].
    destruct (Rlt_dec a r) as [L|L].
    - cbn [length]. destruct Hr as [->|Hr]; [lra|]. specialize (IH Hr). lia.
    - apply Nat.lt_succ_r. clear. induction l as [|b l IH]; [cbn; lia|]. cbn [filter]. destruct (Rlt_dec b r); cbn [length]; lia.
  Qed.

  (* in general the flag under the number of profile p tells about the profile at the position the
     number has among the sorted numbers *)
  Theorem fresh_labels_right : exists es, set_calseries qs src None = Ok (file_of es default_settings) /\
    ((forall p f, p < length rs -> In (nth p rs 0%R, f) es -> (f = 1%R <-> has_data src p)) <->
     (forall p, p < length rs -> (has_data src (rank rs (nth p rs 0%R)) <-> has_data src p))).
  Proof.
    destruct fresh_file as (es & E & P & A & F). exists es. split; [exact E|].
    assert (LE : length es = length rs) by (rewrite <- (map_length fst es); now apply Permutation_length).
    assert (K : forall p, p < length rs -> forall f, In (nth p rs 0%R, f) es <-> f = snd (nth (rank rs (nth p rs 0%R)) es (0, 0)%R)).
    { intros p Hp f. assert (Hr : In (nth p rs 0%R) rs) by now apply nth_In.
      pose proof (rank_nth (map fst es) _ A P Hr) as RN. pose proof (rank_lt _ Hr) as RL.
      assert (Ef : fst (nth (rank rs (nth p rs 0%R)) es (0, 0)%R) = nth p rs 0%R).
      { rewrite <- RN at 2. symmetry. apply fst_nth. }
      split.
      - intros Hin. apply (In_nth _ _ (0, 0)%R) in Hin as (k & Hk & Ek).
        assert (Ek' : nth k (map fst es) 0%R = nth p rs 0%R) by (now rewrite fst_nth, Ek).
        rewrite <- RN in Ek' at 1. apply (NoDup_nth (map fst es) 0%R) in Ek'.
        + subst k. now rewrite Ek.
        + apply increasing_nodup, A.
        + now rewrite map_length.
        + rewrite map_length, LE. exact RL.
      - intros ->. rewrite <- Ef at 1. rewrite <- surjective_pairing. apply nth_In. now rewrite LE. }
    assert (V : forall p, p < length rs -> (snd (nth (rank rs (nth p rs 0%R)) es (0, 0)%R) = 1%R <-> has_data src (rank rs (nth p rs 0%R)))).
    { intros p Hp. assert (Hr : In (nth p rs 0%R) rs) by now apply nth_In. pose proof (rank_lt _ Hr) as RL.
      destruct (F _ RL) as [F1 F2]. split; [|exact F1]. intros E1.
      destruct (no_data src (rank rs (nth p rs 0%R))) eqn:D; [|now apply no_data_false].
      apply no_data_spec in D. specialize (F2 D). lra. }
    split; intros G p.
    - intros Hp. rewrite <- (V p Hp). apply G; [exact Hp|]. now apply K.
    - intros f Hp Hin. apply K in Hin; [|exact Hp]. subst f. rewrite (V p Hp). now apply G.
  Qed.
  Theorem fresh_twice f : set_calseries qs src None = Ok f -> set_calseries qs src (Some f) = Ok f.
  Proof. rewrite fresh_existing. apply existing_twice; rewrite ones_fst; [exact ND|apply incl_refl]. Qed.

  (* a history of calls *)
  Lemma calls_fixed k f : set_calseries qs src (Some f) = Ok f -> calls qs src k (Some f) = Ok (Some f).
  Proof. intros E. induction k as [|k IH]; [reflexivity|]. cbn [calls]. rewrite E. exact IH. Qed.
  Theorem calls_same k file f :
    file = None \/ (exists es o, file = Some (file_of es o) /\ NoDup (map fst es) /\ incl rs (map fst es)) ->
    set_calseries qs src file = Ok f -> calls qs src (S k) file = Ok (Some f).
  Proof.
    intros Hf E. cbn [calls]. rewrite E. apply calls_fixed. destruct Hf as [->|(es & o & -> & NE & HI)].
    - now apply fresh_twice.
    - now apply (existing_twice es o).
  Qed.
End Calseries.

(* ---- instances ---- *)
Local Open Scope R_scope.
Definition full : list XR := [Fin 35; NaN].
Definition empty : list XR := [NaN; NaN].
Lemma full_value : has_value full.
Proof. exists (Fin 35). split; [now left|reflexivity]. Qed.
Lemma empty_value : ~ has_value empty.
Proof. intros (x & [<-|[<-|[]]] & Hx); discriminate Hx. Qed.

(* profile number 2 comes first and has no salinity *)
Definition src_unsorted : cal_source XR := mkCalSource [Fin 2; Fin 1] [empty; full] [full; full] [full; full].
(* the last of two profiles has no salinity *)
Definition src_sorted : cal_source XR := mkCalSource [Fin 1; Fin 2] [full; empty] [full; full] [full; full].
Definition src_one : cal_source XR := mkCalSource [Fin 2] [empty] [full] [full].
Lemma two_distinct a b : a <> b -> NoDup [a; b : R].
Proof. intros Hn. constructor; [intros [E|[]]; congruence|]. constructor; [intros []|constructor]. Qed.

Theorem fresh_wrong : exists rs src, NoDup rs /\ cs_no src = map Fin rs /\ complete src /\
  forall qs, sorting qs -> exists es f p, set_calseries qs src None = Ok f /\ f = file_of es default_settings /\
    (p < length rs)%nat /\ has_data src p /\ In (nth p rs 0, 0) es /\
    exists p', (p' < length rs)%nat /\ ~ has_data src p' /\ In (nth p' rs 0, 1) es.
Proof.
  exists [2; 1], src_unsorted. assert (ND : NoDup [2; 1]) by (apply two_distinct; cbn; lra).
  split; [exact ND|]. split; [reflexivity|]. split; [repeat split|]. intros qs HS.
  destruct (fresh_file qs HS [2; 1] ND src_unsorted eq_refl ltac:(repeat split)) as (es & E & P & A & F).
  assert (D0 : ~ has_data src_unsorted 0) by (intros [D _]; now apply empty_value in D).
  assert (D1 : has_data src_unsorted 1) by (repeat split; exact full_value).
  assert (EF : map fst es = [1; 2]).
  { apply increasing_perm; [exact A| |rewrite P; apply perm_swap]. intros i j [H1 H2]. cbn in H2. destruct i, j as [|[|j]]; try lia. cbn. lra. }
  destruct es as [|[a f] [|[b g] [|c es]]]; cbn in EF; try discriminate. injection EF as -> ->.
  pose proof (proj2 (F 0%nat ltac:(cbn; lia)) D0) as F0. pose proof (proj1 (F 1%nat ltac:(cbn; lia)) D1) as F1. cbn in F0, F1. subst f g.
  exists [(1, 0); (2, 1)], (file_of [(1, 0); (2, 1)] default_settings), 1%nat. split; [exact E|]. split; [reflexivity|].
  split; [cbn; lia|]. split; [exact D1|]. split; [now left|]. exists 0%nat. split; [cbn; lia|]. split; [exact D0|]. right. now left.
Qed.

(* the file has one profile more than the source *)
Theorem existing_wrong : exists rs src es o, ascends rs /\ cs_no src = map Fin rs /\ complete src /\ NoDup (map fst es) /\ incl rs (map fst es) /\
  forall qs, sorting qs -> exists es', set_calseries qs src (Some (file_of es o)) = Ok (file_of es' o) /\
    exists p f, (p < length rs)%nat /\ ~ has_data src p /\ f <> 0 /\ In (nth p rs 0, f) es'.
Proof.
  exists [2], src_one, [(1, 5); (2, 7)], default_settings.
  assert (ND : NoDup [2]) by (constructor; [intros []|constructor]).
  assert (NE : NoDup (map fst [(1, 5); (2, 7)])) by (apply two_distinct; cbn; lra).
  assert (HI : incl [2] (map fst [(1, 5); (2, 7)])) by (intros x [<-|[]]; right; now left).
  assert (D : ~ has_data src_one 0) by (intros [D _]; now apply empty_value in D).
  split. { intros i j [H1 H2]. cbn in H2. lia. }
  split; [reflexivity|]. split; [repeat split|]. split; [exact NE|]. split; [exact HI|]. intros qs HS.
  destruct (existing_file qs HS [2] ND src_one eq_refl ltac:(repeat split) _ default_settings NE HI) as (es & E & P & A & F).
  rewrite reset_single in E by (repeat split; unfold single; cbn; lia). exists es. split; [exact E|].
  assert (EF : map fst es = [1; 2]).
  { apply increasing_perm; [exact A| |exact P]. intros i j [H1 H2]. cbn in H2. destruct i, j as [|[|j]]; try lia. cbn. lra. }
  destruct es as [|[a f] [|[b g] [|c es]]]; cbn in EF; try discriminate. injection EF as -> ->.
  exists 0%nat, 7. split; [cbn; lia|]. split; [exact D|]. split; [lra|].
  destruct (F 1%nat ltac:(cbn; lia)) as [(B & _)|(_ & [B|[B|[]]])]; [cbn in B; lia|..]; cbn in B; injection B; intros; [lra|]. subst g. right. now left.
Qed.
