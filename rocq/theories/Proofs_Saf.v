From Coq Require Import ZArith List Bool Lia Sorting.Sorted.
From Verif Require Import Num Np NumFacts NpFacts Fetchers Saf Spec_Saf Proofs_Besthist.
Import ListNotations.

Section Saf.
  Context {T : Type} `{Num T}.
  Variables (np_interp : T -> list T -> list T -> T) (sa : T -> T -> T -> T -> T) (ct : T -> T -> T) (tc : T -> T -> T -> T).
  Notation saf_ := (frontal_constraint_saf np_interp sa ct tc).
  Notation crit_ := (crit_saf np_interp).
  Notation side_ := (fun c => cast_saf np_interp sa ct tc (k_pres c) (k_sal c) (k_ptmp c) (k_long c) (k_lat c)).

  Lemma take_map_argwhere {A B} (f : A -> B) (d : B) (p : A -> bool) (cs : list A) (extra : list B) :
    take d (map f cs ++ extra) (argwhere p cs) = map f (filter p cs).
  Proof.
    destruct cs as [|c0 cs']; [reflexivity|]. set (cs := c0 :: cs').
    rewrite <- (take_argwhere c0 p cs). unfold take. rewrite map_map. apply map_ext_in.
    intros i Hi. apply (argwhere_spec c0) in Hi as [Hi _].
    rewrite app_nth1 by (rewrite map_length; exact Hi).
    now rewrite (nth_map f cs i d c0).
  Qed.

  Lemma argwhere_map {A B} (f : A -> B) p (l : list A) : argwhere p (map f l) = argwhere (fun a => p (f a)) l.
  Proof. unfold argwhere. generalize 0%nat. induction l as [|a l IH]; intros k; cbn; [reflexivity|]. rewrite !IH. reflexivity. Qed.

  Lemma mapM_seq {A B} (F : nat -> res B) (G : A -> res B) (l : list A) (d : A) :
    (forall i, (i < length l)%nat -> F i = G (nth i l d)) -> mapM F (seq 0 (length l)) = mapM G l.
  Proof.
    revert F. induction l as [|a l IH]; intros F HF; [reflexivity|].
    cbn [length seq mapM]. rewrite (HF 0%nat) by (cbn; lia). cbn [nth].
    replace (mapM F (seq 1 (length l))) with (mapM G l); [reflexivity|].
    rewrite <- (IH (fun i => F (S i))); [|intros i Hi; apply (HF (S i)); cbn; lia].
    rewrite <- seq_shift. clear. induction (seq 0 (length l)) as [|x xs IH]; cbn; [reflexivity|]. now rewrite IH.
  Qed.

  Lemma filter_all {A} (p : A -> bool) l : (forall a, In a l -> p a = true) -> filter p l = l.
  Proof. induction l as [|a l IH]; intros Hp; cbn; [reflexivity|]. rewrite Hp by (now left). f_equal. apply IH. intros; apply Hp; now right. Qed.

  Lemma take_grid (p : gcast T -> bool) cs extra :
    mkGrid (take [] (gr_sal (grid_of cs extra)) (argwhere p cs)) (take [] (gr_ptmp (grid_of cs extra)) (argwhere p cs))
           (take [] (gr_pres (grid_of cs extra)) (argwhere p cs)) (take nnan (gr_lat (grid_of cs extra)) (argwhere p cs))
           (take nnan (gr_long (grid_of cs extra)) (argwhere p cs)) (take nnan (gr_dates (grid_of cs extra)) (argwhere p cs))
           (take nnan (gr_z (grid_of cs extra)) (argwhere p cs)) = grid_of (filter p cs) [].
  Proof.
    cbn [grid_of gr_sal gr_ptmp gr_pres gr_lat gr_long gr_dates gr_z]. unfold grid_of.
    rewrite app_nil_r.
    pose proof (fun B (f : gcast T -> B) d => take_map_argwhere f d p cs []) as E.
    assert (E' : forall B (f : gcast T -> B) d, take d (map f cs) (argwhere p cs) = map f (filter p cs))
      by (intros B f d; rewrite <- (E B f d), app_nil_r; reflexivity).
    rewrite !E'. now rewrite take_map_argwhere.
  Qed.

  Theorem saf_north saf g fl : nltb (fl_lat fl) (nofZ (-30)) = false -> saf_ saf g fl = Ok g.
  Proof. intros E. unfold frontal_constraint_saf. now rewrite E. Qed.

  Lemma saf_eq saf cs extra fl : nltb (fl_lat fl) (nofZ (-30)) = true ->
    saf_ saf (grid_of cs extra) fl =
    (let* c := crit_ saf fl in
     if Z.eqb c 0 then Ok (grid_of cs [])
     else let* sides := mapM side_ cs in
          Ok (grid_of (filter (fun k => match side_ k with Ok z => Z.eqb c z | Raise _ => false end) cs) [])).
  Proof.
    intros E. unfold frontal_constraint_saf. rewrite E.
    destruct (crit_ saf fl) as [c|e]; cbn [bind]; [|reflexivity].
    assert (LN : length (gr_long (grid_of cs extra)) = length cs) by (cbn; now rewrite map_length).
    destruct (Z.eqb_spec c 0) as [->|N].
    - cbn [bind]. rewrite LN.
      replace (repeat 0%Z (length cs)) with (map (fun _ : gcast T => 0%Z) cs)
        by (clear; induction cs; cbn; [reflexivity|now f_equal]).
      rewrite argwhere_map, take_grid, filter_all by reflexivity. reflexivity.
    - rewrite LN.
      rewrite (mapM_seq _ side_ cs (mkGcast [] [] [] nnan nnan nnan nnan)).
      2:{ intros i Hi. cbn [grid_of gr_sal gr_ptmp gr_pres gr_lat gr_long].
          set (d := mkGcast [] [] [] nnan nnan nnan nnan).
          rewrite (nth_map k_pres cs i [] d), (nth_map k_sal cs i [] d), (nth_map k_ptmp cs i [] d),
            (nth_map k_long cs i nnan d), (nth_map k_lat cs i nnan d) by exact Hi. reflexivity. }
      destruct (mapM side_ cs) as [bs|e] eqn:EM; cbn [bind]; [|reflexivity].
      assert (EB : argwhere (Z.eqb c) bs = argwhere (fun k => match side_ k with Ok z => Z.eqb c z | Raise _ => false end) cs).
      { replace bs with (map (fun k => match side_ k with Ok z => z | Raise _ => 0%Z end) cs).
        - rewrite argwhere_map. unfold argwhere. generalize 0%nat.
          assert (HO : forall k, In k cs -> exists z, side_ k = Ok z).
          { apply mapM_ok in EM. clear - EM. induction EM as [|k0 z cs bs Hk0 _ IH]; intros k Hk; [destruct Hk|].
            destruct Hk as [<-|Hk]; [eauto|now apply IH]. }
          clear - HO. induction cs as [|k cs IH]; intros m; [reflexivity|]. cbn [argwhere_from].
          destruct (HO k (or_introl eq_refl)) as [z Hz]. rewrite Hz.
          rewrite !IH by (intros k' Hk'; apply HO; now right). reflexivity.
        - apply mapM_ok in EM. clear - EM. induction EM as [|k z cs bs Hk _ IH]; [reflexivity|].
          cbn [map]. rewrite Hk. now f_equal. }
      rewrite EB, take_grid. reflexivity.
  Qed.

  (* C59 *)
  Theorem saf_subselection saf cs extra fl g : saf_ saf (grid_of cs extra) fl = Ok g ->
    g = grid_of cs extra \/ exists keep, g = grid_of (filter keep cs) [].
  Proof.
    intros E. destruct (nltb (fl_lat fl) (nofZ (-30))) eqn:EL.
    - right. rewrite saf_eq in E by exact EL. destruct (crit_ saf fl) as [c|e]; cbn [bind] in E; [|discriminate].
      destruct (Z.eqb c 0); [inversion E; exists (fun _ => true); now rewrite filter_all|].
      destruct (mapM side_ cs); cbn [bind] in E; [|discriminate]. inversion E. eauto.
    - left. rewrite saf_north in E by exact EL. now inversion E.
  Qed.

  Theorem saf_selected saf cs extra fl g : nltb (fl_lat fl) (nofZ (-30)) = true ->
    saf_ saf (grid_of cs extra) fl = Ok g ->
    exists c keep, crit_ saf fl = Ok c /\ g = grid_of (filter keep cs) [] /\
      forall k, In k cs -> (keep k = true <-> c = 0%Z \/ side_ k = Ok c).
  Proof.
    intros EL E. rewrite saf_eq in E by exact EL. destruct (crit_ saf fl) as [c|e] eqn:EC; cbn [bind] in E; [|discriminate].
    destruct (Z.eqb_spec c 0) as [->|N].
    - exists 0%Z, (fun _ => true). inversion E. rewrite filter_all by reflexivity. repeat split; auto.
    - destruct (mapM side_ cs); cbn [bind] in E; [|discriminate]. inversion E.
      eexists c, _. split; [reflexivity|]. split; [reflexivity|]. intros k Hk. cbv beta.
      destruct (cast_saf _ _ _ _ _ _ _ _ _) as [z|]; [|split; [discriminate|intros [?|?]; [contradiction|discriminate]]].
      rewrite Z.eqb_eq. split; [intros ->; auto|intros [?|X]; [contradiction|now inversion X]].
  Qed.

  (* what it is for a cast to be on a side *)
  Lemma side_of_t300_on c t : side_of_t300 t = c -> c <> 0%Z -> on_side c t.
  Proof.
    unfold side_of_t300, on_side. destruct (nltb (nofZ 5) t) eqn:A; [intros <-; auto|].
    destruct (nltb t (nofZ 3)) eqn:B; [intros <-; auto|]. intros <-; congruence.
  Qed.
  Theorem cast_side k c : side_ k = Ok c -> c <> 0%Z ->
    exists idx tmp, StronglySorted lt idx /\
      (forall i, In i idx -> nisnan (nth i (k_pres k) nnan) = false /\ nisnan (nth i (k_sal k) nnan) = false /\
                             nisnan (nth i (k_ptmp k) nnan) = false) /\
      spans_300 (map (fun i => nth i (k_pres k) nnan) idx) /\ length tmp = length idx /\
      on_side c (np_interp (nofZ 300) (map (fun i => nth i (k_pres k) nnan) idx) tmp).
  Proof.
    unfold cast_saf. cbv zeta.
    match goal with |- context [filter ?f (seq 0 ?n)] => set (ok := f); set (isok := filter ok (seq 0 n)) end.
    match goal with |- context [take nnan (map ?f ?l) isok] => set (tmp := take nnan (map f l) isok) end.
    intros E N.
    assert (G : (if (2 <? length isok)%nat && around_300 (take nnan (k_pres k) isok)
                 then Ok (side_of_t300 (np_interp (nofZ 300) (take nnan (k_pres k) isok) tmp)) else Ok 0%Z) = Ok c).
    { destruct (argwhere _ _) as [|i [|? ?]]; [exact E| |discriminate].
      destruct (Nat.eqb i 0); [exact E|inversion E; subst; contradiction]. }
    clear E.
    destruct ((2 <? length isok)%nat && around_300 (take nnan (k_pres k) isok)) eqn:EA; [|inversion G; subst; contradiction].
    apply andb_prop in EA as [E2 EA]. apply andb_prop in EA as [EA EB]. apply Nat.ltb_lt in E2.
    exists isok, tmp. split; [|split; [|split; [|split]]].
    - unfold isok. clear. generalize (length (k_pres k)), 0%nat. intros n. induction n as [|n IH]; intros m; cbn; [constructor|].
      destruct (ok m); [|apply IH]. constructor; [apply IH|]. apply Forall_forall. intros x Hx. apply filter_In in Hx as [Hx _].
      apply in_seq in Hx. lia.
    - intros i Hi. apply filter_In in Hi as [_ Hi]. unfold ok in Hi.
      repeat (apply andb_prop in Hi as [Hi ?]). repeat split; now apply negb_true_iff.
    - split; [now rewrite map_length|]. split; assumption.
    - unfold tmp, take. apply map_length.
    - apply side_of_t300_on; [|exact N]. unfold take in G. congruence.
  Qed.

  Lemma diff_repeats (ps : list T) : repeats ps -> argwhere (fun d => neqb d (nofZ 0)) (np_diff ps) <> [].
  Proof.
    intros (a & x & y & b & -> & E).
    assert (HI : In (nsub y x) (np_diff (a ++ x :: y :: b))).
    { unfold np_diff. apply in_map_iff. exists (x, y). split; [reflexivity|].
      induction a as [|a0 [|a1 a] IH]; cbn; auto. }
    apply (In_nth _ _ (nofZ 0)) in HI as (i & Hi & HE). intros EN.
    assert (HW : In i (argwhere (fun d => neqb d (nofZ 0)) (np_diff (a ++ x :: y :: b)))).
    { apply (argwhere_spec (nofZ 0)). split; [exact Hi|]. rewrite HE. exact E. }
    rewrite EN in HW. destruct HW.
  Qed.

  Theorem saf_repeated saf g fl : nltb (fl_lat fl) (nofZ (-30)) = true -> repeats (usable_pres fl) ->
    saf_ saf g fl = Raise ValueError.
  Proof.
    intros EL HR. unfold frontal_constraint_saf. rewrite EL.
    unfold crit_saf. cbv zeta. change (take nnan (fl_pres fl)
      (filter (fun k => negb (nisnan (nth k (fl_pres fl) nnan)) && negb (nisnan (nth k (fl_tmp fl) nnan))) (seq 0 (length (fl_pres fl)))))
      with (usable_pres fl).
    apply diff_repeats in HR. destruct (argwhere _ _); [now elim HR|reflexivity].
  Qed.

  Theorem saf_float_side saf fl c :
    argwhere (fun d => neqb d (nofZ 0)) (np_diff (usable_pres fl)) = [] -> spans_300 (usable_pres fl) ->
    let tmp := map (fun i => nth i (fl_tmp fl) nnan) (filter (usable fl) (seq 0 (length (fl_pres fl)))) in
    on_side c (np_interp (nofZ 300) (usable_pres fl) tmp) -> crit_ saf fl = Ok c.
  Proof.
    intros ER (E2 & E3 & E4). cbv zeta. intros EC. unfold crit_saf. cbv zeta.
    fold (usable fl). unfold usable_pres, take in *. rewrite ER.
    rewrite map_length in E2. apply Nat.ltb_lt in E2. rewrite E2. unfold around_300. rewrite E3, E4. cbn [andb].
    unfold side_of_t300. destruct EC as [[-> EC]|(-> & EC & EC')]; [now rewrite EC|]. now rewrite EC', EC.
  Qed.
End Saf.
