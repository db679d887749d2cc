From Coq Require Import ZArith List Bool Lia Sorting.Sorted.
From Verif Require Import Num Np NumFacts NpFacts Fetchers Saf Spec_Saf Spec_Saf2 Proofs_Besthist Proofs_Saf.
Import ListNotations.

Section Saf2.
  Context {T : Type} `{Num T}.
  Variables (np_interp : T -> list T -> list T -> T) (sa : T -> T -> T -> T -> T) (ct : T -> T -> T) (tc : T -> T -> T -> T).
  Notation saf_ := (frontal_constraint_saf np_interp sa ct tc).
  Notation crit_ := (crit_saf np_interp).
  Notation side_ := (fun c => cast_saf np_interp sa ct tc (k_pres c) (k_sal c) (k_ptmp c) (k_long c) (k_lat c)).

  Lemma length_np_diff (l : list T) : length (np_diff l) = (length l - 1)%nat.
  Proof. unfold np_diff. rewrite map_length, combine_length. destruct l as [|a l]; cbn [tl length]; lia. Qed.

  Lemma nth_np_diff (l : list T) i d : (S i < length l)%nat ->
    nth i (np_diff l) d = nsub (nth (S i) l nnan) (nth i l nnan).
  Proof.
    intros Hi. rewrite (nth_indep _ d (nsub nnan nnan)) by (rewrite length_np_diff; lia).
    unfold np_diff. change (nsub nnan nnan) with ((fun p : T * T => nsub (snd p) (fst p)) (nnan, nnan)).
    rewrite map_nth.
    revert l Hi. induction i as [|i IH]; intros [|a [|b l]] Hi; cbn [length] in Hi; try lia; [reflexivity|].
    exact (IH (b :: l) ltac:(cbn [length]; lia)).
  Qed.

  Lemma no_repeat (ps : list T) : ~ repeats ps -> argwhere (fun d => neqb d (nofZ 0)) (np_diff ps) = [].
  Proof.
    intros NR. destruct (argwhere _ _) as [|i r] eqn:E; [reflexivity|]. exfalso. apply NR.
    assert (HI : In i (argwhere (fun d => neqb d (nofZ 0)) (np_diff ps))) by (rewrite E; now left).
    apply (argwhere_spec nnan) in HI as [HL HE]. rewrite length_np_diff in HL.
    rewrite nth_np_diff in HE by lia.
    exists (firstn i ps), (nth i ps nnan), (nth (S i) ps nnan), (skipn (S (S i)) ps). split; [|exact HE].
    clear - HL. revert ps HL. induction i as [|i IH]; intros [|a [|b l]] HL; cbn [length] in HL; try lia; [reflexivity|].
    cbn [firstn nth skipn app]. f_equal. apply (IH (b :: l)). cbn [length]. lia.
  Qed.

  Lemma sorted_filter_seq (f : nat -> bool) n m : StronglySorted lt (filter f (seq m n)).
  Proof.
    revert m. induction n as [|n IH]; intros m; cbn [seq filter]; [constructor|].
    destruct (f m); [|apply IH]. constructor; [apply IH|]. apply Forall_forall. intros x Hx.
    apply filter_In in Hx as [Hx _]. apply in_seq in Hx. lia.
  Qed.

  Lemma sorted_unique (a b : list nat) : StronglySorted lt a -> StronglySorted lt b ->
    (forall i, In i a <-> In i b) -> a = b.
  Proof.
    revert b. induction a as [|x a IH]; intros [|y b] Ha Hb E; [reflexivity| | |].
    - destruct (proj2 (E y) (or_introl eq_refl)).
    - destruct (proj1 (E x) (or_introl eq_refl)).
    - inversion Ha as [|? ? Sa Fa]; subst. inversion Hb as [|? ? Sb Fb]; subst.
      rewrite Forall_forall in Fa, Fb.
      assert (x = y).
      { destruct (proj1 (E x) (or_introl eq_refl)) as [|Hx]; [now symmetry|].
        destruct (proj2 (E y) (or_introl eq_refl)) as [|Hy]; [assumption|].
        apply Fb in Hx. apply Fa in Hy. lia. }
      subst y. f_equal. apply IH; [assumption..|]. intros i. split; intros Hi.
      + destruct (proj1 (E i) (or_intror Hi)) as [<-|]; [apply Fa in Hi; lia|assumption].
      + destruct (proj2 (E i) (or_intror Hi)) as [<-|]; [apply Fb in Hi; lia|assumption].
  Qed.

  (* the levels used by the model *)
  Definition isok_of (k : gcast T) : list nat :=
    filter (fun i => negb (nisnan (nth i (k_pres k) nnan)) && negb (nisnan (nth i (k_sal k) nnan)) &&
                     negb (nisnan (nth i (k_ptmp k) nnan)) &&
                     (Nat.ltb i (length (np_diff (k_pres k))) && negb (neqb (nth i (np_diff (k_pres k)) nnan) (nofZ 0))))
           (seq 0 (length (k_pres k))).

  Lemma isok_lists k : lists_levels k (isok_of k).
  Proof.
    split; [|apply sorted_filter_seq]. intros i. unfold isok_of. rewrite filter_In, in_seq, !andb_true_iff, !negb_true_iff,
      Nat.ltb_lt, length_np_diff. unfold level_used, at_. split.
    - intros (_ & ((A & B) & C) & D & E). rewrite nth_np_diff in E by lia. repeat split; try assumption. lia.
    - intros (A & B & C & D & E). rewrite nth_np_diff by lia. repeat split; try assumption; lia.
  Qed.

  Lemma lists_levels_unique k idx : lists_levels k idx -> idx = isok_of k.
  Proof.
    intros [A B]. destruct (isok_lists k) as [C D]. apply sorted_unique; [assumption..|].
    intros i. rewrite A. symmetry. apply C.
  Qed.

  Lemma nth_in_situ k i : length (k_sal k) = length (k_pres k) -> length (k_ptmp k) = length (k_pres k) ->
    (i < length (k_pres k))%nat ->
    nth i (map (fun q => let '(s, pt, p) := q in
                 let s' := sa s p (k_long k) (k_lat k) in tc s' (ct s' pt) p)
               (combine (combine (k_sal k) (k_ptmp k)) (k_pres k))) nnan = in_situ sa ct tc k i.
  Proof.
    intros E1 E2 Hi.
    match goal with |- nth i (map ?f ?l) _ = _ =>
      set (g := f); rewrite (nth_indep (map g l) nnan (g (nnan, nnan, nnan))) by (rewrite map_length, !combine_length; lia);
      rewrite (map_nth g l (nnan, nnan, nnan) i) end.
    rewrite !combine_nth by (rewrite ?combine_length; lia). reflexivity.
  Qed.

  Lemma side_value (t : T) c : c <> 0%Z -> (side_of_t300 t = c <-> on_side c t).
  Proof.
    intros N. split; [intros E; now apply side_of_t300_on|]. unfold side_of_t300.
    intros [[-> A]|(-> & A & B)]; [now rewrite A|now rewrite B, A].
  Qed.

  Lemma cast_value k : regular k ->
    side_ k = if (2 <? length (isok_of k))%nat && around_300 (map (at_ (k_pres k)) (isok_of k))
              then Ok (side_of_t300 (np_interp (nofZ 300) (map (at_ (k_pres k)) (isok_of k)) (map (in_situ sa ct tc k) (isok_of k))))
              else Ok 0%Z.
  Proof.
    intros (E1 & E2 & R). cbv beta. unfold cast_saf. cbv zeta. fold (isok_of k). unfold take.
    change (fun i => nth i (k_pres k) nnan) with (at_ (k_pres k)).
    rewrite (no_repeat _ (R _ (isok_lists k))).
    destruct (_ && _); [|reflexivity]. do 3 f_equal. apply map_ext_in. intros i Hi.
    apply nth_in_situ; [assumption..|]. destruct (proj1 (proj1 (isok_lists k) i) Hi) as [? _]. lia.
  Qed.

  Lemma cast_ok k : regular k -> exists z, side_ k = Ok z.
  Proof. intros R. cbv beta. rewrite (cast_value k R). destruct (_ && _); eauto. Qed.

  Theorem cast_on_side_iff k c : regular k -> c <> 0%Z -> (side_ k = Ok c <-> cast_on_side np_interp sa ct tc c k).
  Proof.
    intros R N. cbv beta. rewrite (cast_value k R). split.
    - destruct (_ && _) eqn:E; [|intros X; inversion X; subst; contradiction].
      intros X. apply andb_prop in E as [A B]. apply andb_prop in B as [B C]. apply Nat.ltb_lt in A.
      exists (isok_of k). split; [apply isok_lists|]. split; [split; [rewrite map_length; exact A|split; assumption]|].
      apply side_value; [exact N|]. now inversion X.
    - intros (idx & L & (A & B & C) & S). apply lists_levels_unique in L as ->.
      rewrite map_length in A. apply Nat.ltb_lt in A. rewrite A. unfold around_300. rewrite B, C. cbn [andb].
      apply side_value in S; [|exact N]. now rewrite S.
  Qed.

  Lemma mapM_total {A B} (f : A -> res B) l : (forall a, In a l -> exists b, f a = Ok b) -> exists bs, mapM f l = Ok bs.
  Proof.
    induction l as [|a l IH]; intros X; [now exists []|]. destruct (X a (or_introl eq_refl)) as [b Hb].
    destruct IH as [bs Hbs]; [intros; apply X; now right|]. exists (b :: bs). cbn [mapM]. rewrite Hb. cbn [bind]. now rewrite Hbs.
  Qed.

  (* a float whose temperature at 300 dbar decides keeps exactly the casts of its side *)
  Theorem saf_kept saf cs extra fl c : nltb (fl_lat fl) (nofZ (-30)) = true ->
    ~ repeats (usable_pres fl) -> spans_300 (usable_pres fl) -> on_side c (float_t300 np_interp fl) ->
    Forall regular cs ->
    exists keep, saf_ saf (grid_of cs extra) fl = Ok (grid_of (filter keep cs) []) /\
      forall k, In k cs -> (keep k = true <-> cast_on_side np_interp sa ct tc c k).
  Proof.
    intros EL NR SP OS RG. rewrite Forall_forall in RG.
    assert (N : c <> 0%Z) by (destruct OS as [[-> _]|[-> _]]; discriminate).
    rewrite saf_eq by exact EL.
    rewrite (saf_float_side np_interp saf fl c (no_repeat _ NR) SP OS). cbn [bind].
    destruct (Z.eqb_spec c 0); [contradiction|].
    destruct (mapM_total side_ cs) as [bs Hbs]; [intros k Hk; apply cast_ok; now apply RG|].
    rewrite Hbs. cbn [bind]. eexists. split; [reflexivity|]. intros k Hk. cbv beta.
    rewrite <- (cast_on_side_iff k c (RG k Hk) N). cbv beta.
    destruct (cast_saf _ _ _ _ _ _ _ _ _) as [z|e]; [|split; discriminate].
    rewrite Z.eqb_eq. split; [intros ->; reflexivity|intros X; now inversion X].
  Qed.

  Lemma max_from_in (l : list T) m : In (max_from m l) (m :: l).
  Proof.
    unfold max_from. revert m. induction l as [|a l IH]; intros m; cbn [fold_left]; [now left|].
    match goal with |- In (fold_left _ _ ?x) _ => destruct (IH x) as [E|E] end; [|right; now right].
    rewrite <- E. clear. repeat match goal with |- context [if ?b then _ else _] => destruct b end; cbn; auto.
  Qed.

  (* the last row of a cast is never used *)
  Theorem last_row_unused k c : (forall i, (S i < length (k_pres k))%nat -> nltb (nofZ 300) (at_ (k_pres k) i) = false) ->
    ~ cast_on_side np_interp sa ct tc c k.
  Proof.
    intros X (idx & [L _] & (A & _ & C) & _). unfold np_max in C.
    destruct (map (at_ (k_pres k)) idx) as [|x r] eqn:E; [cbn in A; lia|].
    pose proof (max_from_in r x) as I. rewrite <- E in I. apply in_map_iff in I as (i & Hi & I).
    rewrite <- Hi in C. apply L in I as [I _]. rewrite (X i I) in C. discriminate.
  Qed.

  (* the float *)
  Theorem crit_no_span saf fl : ~ repeats (usable_pres fl) -> ~ spans_300 (usable_pres fl) -> crit_ saf fl = Ok 0%Z.
  Proof.
    intros NR NS. unfold crit_saf. cbv zeta. fold (usable fl).
    pose proof (no_repeat _ NR) as ER. unfold usable_pres, take in *. rewrite ER.
    destruct (_ && _) eqn:E; [|reflexivity]. exfalso. apply NS.
    apply andb_prop in E as [A B]. apply andb_prop in B as [B C]. apply Nat.ltb_lt in A.
    split; [now rewrite map_length|split; assumption].
  Qed.

  Lemma nth_map_nan (f : T -> T) l i : (i < length l)%nat -> nth i (map f l) nnan = f (nth i l nnan).
  Proof. intros Hi. rewrite (nth_indep _ nnan (f nnan)) by (now rewrite map_length). apply map_nth. Qed.
  Lemma nth_skipn2 (l : list T) i : nth i (skipn 2 l) nnan = nth (2 + i) l nnan.
  Proof. destruct l as [|a [|b l]]; [destruct i; reflexivity|destruct i; reflexivity|reflexivity]. Qed.
  Lemma filter_all_length {A} (p : A -> bool) (l : list A) :
    Nat.eqb (length (filter p l)) (length l) = true <-> (forall a, In a l -> p a = true).
  Proof.
    rewrite Nat.eqb_eq. split.
    - induction l as [|a l IH]; intros E b Hb; [destruct Hb|]. cbn [filter] in E.
      assert (LE : (length (filter p l) <= length l)%nat)
        by (clear; induction l as [|x l IHl]; cbn [filter length]; [lia|]; destruct (p x); cbn [length]; lia).
      destruct (p a) eqn:Ea; cbn [length] in E; [|lia]. destruct Hb as [<-|Hb]; [exact Ea|]. apply IH; [lia|exact Hb].
    - intros X. f_equal. now apply filter_all.
  Qed.

  Theorem crit_envelope saf fl : ~ repeats (usable_pres fl) -> spans_300 (usable_pres fl) ->
    (forall c, ~ on_side c (float_t300 np_interp fl)) ->
    exists c, crit_ saf fl = Ok c /\ (c = -1 \/ c = 0 \/ c = 1)%Z /\
      (c = (-1)%Z <-> (exists j, compared np_interp saf fl j) /\ all_south np_interp saf fl /\ ~ all_north np_interp saf fl) /\
      (c = 1%Z <-> (exists j, compared np_interp saf fl j) /\ all_north np_interp saf fl /\ ~ all_south np_interp saf fl).
  Proof.
    intros NR (E2 & E3 & E4) OS.
    exists (envelope np_interp saf (usable_pres fl) (usable_of fl (fl_sal fl)) (usable_of fl (fl_tmp fl))). split.
    { unfold crit_saf. cbv zeta. fold (usable fl).
      pose proof (no_repeat _ NR) as ER. unfold float_t300, usable_of in *.
      unfold usable_pres, take, at_ in *. rewrite ER. rewrite map_length in E2. apply Nat.ltb_lt in E2. rewrite E2.
      unfold around_300. rewrite E3, E4. cbn [andb].
      match goal with |- context [side_of_t300 ?t] => assert (Z0 : side_of_t300 t = 0%Z) end.
      { match goal with |- ?x = _ => destruct (Z.eq_dec x 0) as [|NZ]; [assumption|] end.
        exfalso. eapply OS. apply side_of_t300_on; [reflexivity|exact NZ]. }
      rewrite Z0. reflexivity. }
    unfold envelope. cbv zeta.
    match goal with |- context [filter ?f (seq 0 ?n)] => set (ok := f); set (len := n); set (isok2 := filter ok (seq 0 len)) end.
    match goal with |- context [Nat.eqb (length (filter ?f isok2)) _] => set (ps := f) end.
    match goal with |- context [if Nat.eqb (length (filter ?f isok2)) (length isok2) then 1%Z else _] => set (pn := f) end.
    assert (LEN : len = (length (deph saf) - 2)%nat) by (unfold len, below_100m; now rewrite skipn_length).
    assert (VT : forall j, (j < len)%nat ->
       nth j (map (fun x => np_interp x (usable_pres fl) (usable_of fl (fl_tmp fl))) (below_100m (deph saf))) nnan = tmp_at np_interp saf fl j).
    { intros j Hj. rewrite nth_map_nan by (unfold len in Hj; exact Hj). unfold below_100m. now rewrite nth_skipn2. }
    assert (VS : forall j, (j < len)%nat ->
       nth j (map (fun x => np_interp x (usable_pres fl) (usable_of fl (fl_sal fl))) (below_100m (deph saf))) nnan = sal_at np_interp saf fl j).
    { intros j Hj. rewrite nth_map_nan by (unfold len in Hj; exact Hj). unfold below_100m. now rewrite nth_skipn2. }
    assert (OKC : forall j, In j isok2 <-> compared np_interp saf fl j).
    { intros j. unfold isok2. rewrite filter_In, in_seq. unfold ok, compared.
      assert (D : (j < len)%nat -> nth j (below_100m (deph saf)) nnan = at_ (deph saf) (2 + j))
        by (intros _; unfold below_100m; apply nth_skipn2).
      split.
      - intros ([_ Hj] & E). cbn [Nat.add] in Hj.
        rewrite !(nth_map_nan _ (map _ _)) in E by (rewrite map_length; exact Hj).
        rewrite (VT j Hj), (VS j Hj), (D Hj), !andb_true_iff, !negb_true_iff in E.
        destruct E as ((((((A1 & A2) & A3) & A4) & A5) & A6) & A7).
        split; [lia|]. repeat split; assumption.
      - intros (Hl & A1 & A2 & A3 & A4 & A5 & A6 & A7). assert (Hj : (j < len)%nat) by lia. split; [lia|].
        rewrite !(nth_map_nan _ (map _ _)) by (rewrite map_length; exact Hj).
        rewrite (VT j Hj), (VS j Hj), (D Hj), !andb_true_iff, !negb_true_iff. repeat split; assumption. }
    assert (LT : forall j, In j isok2 -> (j < len)%nat)
      by (intros j Hj; unfold isok2 in Hj; apply filter_In in Hj as [Hj _]; apply in_seq in Hj; lia).
    assert (PS : Nat.eqb (length (filter ps isok2)) (length isok2) = true <-> all_south np_interp saf fl).
    { rewrite filter_all_length. unfold all_south. split; intros X j Hj.
      - apply OKC in Hj. pose proof (LT j Hj) as Hl. apply X in Hj. unfold ps in Hj.
        rewrite !(nth_map_nan _ (map _ _)) in Hj by (rewrite map_length; exact Hl).
        rewrite (VT j Hl), (VS j Hl) in Hj. now apply andb_prop in Hj.
      - pose proof (LT j Hj) as Hl. apply OKC in Hj. apply X in Hj as [A B]. unfold ps.
        rewrite !(nth_map_nan _ (map _ _)) by (rewrite map_length; exact Hl).
        rewrite (VT j Hl), (VS j Hl). apply andb_true_intro. split; assumption. }
    assert (PN : Nat.eqb (length (filter pn isok2)) (length isok2) = true <-> all_north np_interp saf fl).
    { rewrite filter_all_length. unfold all_north. split; intros X j Hj.
      - apply OKC in Hj. pose proof (LT j Hj) as Hl. apply X in Hj. unfold pn in Hj.
        rewrite !(nth_map_nan _ (map _ _)) in Hj by (rewrite map_length; exact Hl).
        rewrite (VT j Hl), (VS j Hl) in Hj. now apply andb_prop in Hj.
      - pose proof (LT j Hj) as Hl. apply OKC in Hj. apply X in Hj as [A B]. unfold pn.
        rewrite !(nth_map_nan _ (map _ _)) by (rewrite map_length; exact Hl).
        rewrite (VT j Hl), (VS j Hl). apply andb_true_intro. split; assumption. }
    assert (EX : isok2 <> [] <-> exists j, compared np_interp saf fl j).
    { split; [intros X; destruct isok2 as [|j r]; [now elim X|]; exists j; apply OKC; now left|].
      intros [j Hj]. apply OKC in Hj. intros X. rewrite X in Hj. destruct Hj. }
    clearbody isok2 ps pn. clear - PS PN EX.
    destruct isok2 as [|j0 r] eqn:EI.
    { assert (NX : ~ exists j, compared np_interp saf fl j) by (intros X; apply EX in X; now apply X).
      split; [auto|]. split; split; [discriminate|intros [X _]; contradiction|discriminate|intros [X _]; contradiction]. }
    assert (XX : exists j, compared np_interp saf fl j) by (apply EX; discriminate).
    destruct (Nat.eqb (length (filter ps (j0 :: r))) (length (j0 :: r))) eqn:A;
      destruct (Nat.eqb (length (filter pn (j0 :: r))) (length (j0 :: r))) eqn:B; cbn [andb];
      (split; [auto|]); split; split;
      try discriminate; try (intros (_ & X & Y)); try (intros _; split; [exact XX|split]);
      try (apply PS; reflexivity); try (apply PN; reflexivity);
      try (intros Z0; apply PS in Z0; discriminate); try (intros Z0; apply PN in Z0; discriminate);
      try (exfalso; apply Y; apply PN; reflexivity); try (exfalso; apply Y; apply PS; reflexivity);
      try (apply PS in X; discriminate); try (apply PN in X; discriminate); try reflexivity.
  Qed.
  Theorem saf_undecided saf cs extra fl : nltb (fl_lat fl) (nofZ (-30)) = true -> ~ repeats (usable_pres fl) ->
    ~ spans_300 (usable_pres fl) -> saf_ saf (grid_of cs extra) fl = Ok (grid_of cs []).
  Proof. intros EL NR NS. rewrite saf_eq by exact EL. now rewrite (crit_no_span saf fl NR NS). Qed.
  (* end to end: the envelope decides for a float between the temperatures *)
  Theorem saf_envelope saf cs extra fl : nltb (fl_lat fl) (nofZ (-30)) = true -> ~ repeats (usable_pres fl) ->
    spans_300 (usable_pres fl) -> (forall c, ~ on_side c (float_t300 np_interp fl)) -> Forall regular cs ->
    let south := (exists j, compared np_interp saf fl j) /\ all_south np_interp saf fl /\ ~ all_north np_interp saf fl in
    let north := (exists j, compared np_interp saf fl j) /\ all_north np_interp saf fl /\ ~ all_south np_interp saf fl in
    exists keep, saf_ saf (grid_of cs extra) fl = Ok (grid_of (filter keep cs) []) /\
      forall k, In k cs ->
        (south -> (keep k = true <-> cast_on_side np_interp sa ct tc (-1) k)) /\
        (north -> (keep k = true <-> cast_on_side np_interp sa ct tc 1 k)) /\
        (~ south -> ~ north -> keep k = true).
  Proof.
    intros EL NR SP OS RG south north. rewrite Forall_forall in RG.
    destruct (crit_envelope saf fl NR SP OS) as (c & EC & RC & ES & EN). rewrite saf_eq by exact EL. rewrite EC. cbn [bind].
    destruct (Z.eqb_spec c 0) as [->|N].
    - exists (fun _ => true). split; [now rewrite filter_all|]. intros k _.
      split; [intros X; apply ES in X; discriminate|]. split; [intros X; apply EN in X; discriminate|reflexivity].
    - destruct (mapM_total side_ cs) as [bs Hbs]; [intros k Hk; apply cast_ok; now apply RG|].
      rewrite Hbs. cbn [bind]. eexists. split; [reflexivity|]. intros k Hk. cbv beta.
      assert (K : (match side_ k with Ok z => Z.eqb c z | Raise _ => false end) = true <-> cast_on_side np_interp sa ct tc c k).
      { rewrite <- (cast_on_side_iff k c (RG k Hk) N). cbv beta.
        destruct (cast_saf _ _ _ _ _ _ _ _ _) as [z|e]; [|split; discriminate].
        rewrite Z.eqb_eq. split; [intros ->; reflexivity|intros X; now inversion X]. }
      cbv beta in K. split; [intros X; apply ES in X; subst c; exact K|].
      split; [intros X; apply EN in X; subst c; exact K|].
      intros X Y. exfalso. destruct RC as [R|[R|R]]; [apply X, ES, R|contradiction|apply Y, EN, R].
  Qed.
End Saf2.
