(* A mapped level, from the casts of the database to the value *)
From Coq Require Import String Ascii.
From Coq Require Import ZArith List Bool Reals Lra Lia.
From Verif Require Import Num Np NumFacts Utilities Finders Stats Wrangling Topo Fetchers Spec_Fetchers Saf Helper MapProfile Spec_Helper Spec_Interp Spec_MapLevel Spec_Whole
  Proofs_Besthist Proofs_Helper Proofs_Interp2.
Import Helper ListNotations.
Local Open Scope R_scope.

Lemma closest_unique l v p k k' : closest l v p k -> closest l v p k' -> k = k'.
Proof.
  intros (A & B & C) (A' & B' & C'). destruct (C k' A' B') as [C1 C2]. destruct (C' k A B) as [C1' C2'].
  destruct (Nat.lt_trichotomy k k') as [L|[E|L]]; [specialize (C2' L); lra|exact E|specialize (C2 L); lra].
Qed.
Lemma gives_unique l v p o o' : station_gives l v p o -> station_gives l v p o' -> o = o'.
Proof.
  intros [(k & K & ->)|[N ->]] [(k' & K' & ->)|[N' ->]]; try reflexivity.
  - now rewrite (closest_unique _ _ _ _ _ K K').
  - exfalso. exact (N' k (proj1 K)).
  - exfalso. exact (N k' (proj1 K')).
Qed.

Section Level.
  Variable date_str : XR -> list ascii.
  Variable limit : XR.
  Variable pos : Spec_Fetchers.cast XR -> R.
  Variables t p delta : R.
  Notation points_from := (points_from date_str limit pos t p delta).
  Notation gives_point := (gives_point date_str limit pos t p delta).
  Definition xpoint (q : (Spec_Fetchers.cast XR * XR) * (XR * XR)) : hpoint XR :=
    mkHpoint (fst (snd q)) (snd (snd q)) (Fin (pos (fst (fst q)))) (Spec_Fetchers.c_lat (fst (fst q)))
             (change_date (date_str (Spec_Fetchers.c_date (fst (fst q))))) (snd (fst q)).

  Lemma points_window : forall (l : list (Spec_Fetchers.cast XR * XR)) (row : list (XR * XR)),
    length row = length l ->
    (forall c z, In (c, z) l -> (exists a, Spec_Fetchers.c_lat c = Fin a) /\ (exists d, change_date (date_str (Spec_Fetchers.c_date c)) = Fin d) /\ exists b, z = Fin b) ->
    (forall j, (j < length l)%nat -> station_gives (cast_samples limit (nth j (map fst l) (Spec_Fetchers.mkCast NaN NaN NaN [] ""%string))) t p (nth j row (NaN, NaN))) ->
    exists pts, points_from l pts /\ filter (in_window (Fin p) (Fin delta)) (map xpoint (combine l row)) = map known pts.
  Proof.
    induction l as [|[c z] l IH]; intros [|o row] EL HN HS; try discriminate; [exists []; split; [constructor|reflexivity]|].
    destruct (IH row) as (pts & HP & EF).
    { now injection EL. } { intros c' z' H. apply HN. now right. } { intros j Hj. apply (HS (S j)). cbn. lia. }
    specialize (HS 0%nat ltac:(cbn; lia)). cbn [map fst nth] in HS. destruct (HN c z (or_introl eq_refl)) as ((a & EA) & (d & ED) & (b & EZ)).
    cbn [combine map filter]. unfold in_window at 1, xpoint at 1 2. cbn [fst snd hp_sal hp_pres].
    destruct HS as [(k & K & EO)|[N EO]].
    - assert (HS : station_gives (cast_samples limit c) t p o) by (left; eauto). rewrite EO in *. cbn [fst snd].
      set (s := between p_sal (cast_samples limit c) t k) in *. set (q := between p_pres (cast_samples limit c) t k) in *.
      change (negb (nisnan (Fin s))) with true. cbn [andb]. change (nltb (nabs (nsub (Fin q) (Fin p))) (Fin delta)) with (Rltb (Rabs (q - p)) delta).
      destruct (Rltb (Rabs (q - p)) delta) eqn:EW.
      + apply Rltb_true in EW. exists (mkHpoint s q (pos c) a d b :: pts). split.
        * apply used; [|exact HP]. unfold Spec_Whole.gives_point. cbn [hp_lat hp_long hp_date hp_z hp_sal hp_pres]. repeat split; auto.
        * cbn [map]. rewrite EF. unfold known at 1, xpoint. cbn [hp_lat hp_long hp_date hp_z hp_sal hp_pres fst snd]. now rewrite EA, ED, EZ.
      + apply Rltb_false in EW. exists pts. split; [|exact EF]. apply unused; [|exact HP]. intros q' (_ & _ & _ & _ & G & W).
        pose proof (gives_unique _ _ _ _ _ G HS) as E. injection E as E1 E2. rewrite E2 in W. lra.
    - subst o. cbn. exists pts. split; [|exact EF]. apply unused; [|exact HP]. intros q' (_ & _ & _ & _ & G & W).
      pose proof (gives_unique _ _ _ _ _ G (or_intror (conj N eq_refl))) as E. discriminate.
  Qed.
End Level.

(* ---- the samples of a column ---- *)
Definition nolevel : level XR := mkLevel NaN NaN NaN.
Notation sample_of := (fun l : level XR => opt_list (Spec_Interp.complete (l_sal l) (l_ptmp l) (l_pres l))).
Lemma flat_nth {B} (f : level XR -> list B) (l : list (level XR)) : flat_map (fun i => f (nth i l nolevel)) (seq 0 (length l)) = flat_map f l.
Proof.
  induction l as [|a l IH]; [reflexivity|]. cbn [length seq flat_map nth]. f_equal. rewrite <- IH, <- seq_shift, flat_map_concat_map, (flat_map_concat_map _ (seq 0 (length l))), map_map. reflexivity.
Qed.
Lemma sample_blank l : sample_of (blank l) = sample_of l.
Proof.
  unfold blank. destruct (Spec_Fetchers.complete l) eqn:E; [reflexivity|]. destruct l as [a b c]. unfold Spec_Fetchers.complete in E. cbn [l_sal l_ptmp l_pres] in *.
  destruct a, b, c; cbn in *; try reflexivity; discriminate.
Qed.
Lemma col_length limit d c : (length (Spec_Fetchers.levels limit c) <= d)%nat -> length (col limit d c) = d.
Proof. intros H. unfold col. rewrite app_length, map_length, repeat_length. lia. Qed.
Lemma col_samples limit d c : flat_map sample_of (col limit d c) = cast_samples limit c.
Proof.
  unfold col, cast_samples. rewrite flat_map_app.
  assert (E : flat_map sample_of (repeat (mkLevel nnan nnan nnan) (d - length (Spec_Fetchers.levels limit c))) = []) by (induction (d - _)%nat; [reflexivity|exact IHn]).
  rewrite E, app_nil_r. clear E. induction (Spec_Fetchers.levels limit c) as [|l r IH]; [reflexivity|]. cbn [map flat_map]. f_equal; [apply (sample_blank l)|exact IH].
Qed.
Section Columns.
  Variable cols : list (list (level XR)).
  Variable d : nat.
  Hypothesis HD : forall l, In l cols -> length l = d.
  Notation arr f := (to_array2 (map (map f) cols)).
  Lemma arr_shape f g : same_shape (arr f) (arr g).
  Proof. unfold same_shape, to_array2. cbn [a_rows a_cols]. rewrite !map_length. split; [|reflexivity]. destruct cols; [reflexivity|]. cbn. now rewrite !map_length. Qed.
  Lemma arr_cols f : a_cols (arr f) = length cols.
  Proof. cbn. apply map_length. Qed.
  Lemma arr_samples j : (j < length cols)%nat -> samples (arr l_sal) (arr l_ptmp) (arr l_pres) j = flat_map sample_of (nth j cols []).
  Proof.
    intros Hj. unfold samples. assert (HR : a_rows (arr l_sal) = length (nth j cols [])).
    { cbn [to_array2 a_rows]. rewrite (HD (nth j cols [])) by now apply nth_In. destruct cols as [|c0 r]; [cbn in Hj; lia|]. cbn. rewrite map_length. apply HD. now left. }
    rewrite HR, <- (flat_nth sample_of (nth j cols [])). rewrite !flat_map_concat_map. f_equal. apply map_ext_in. intros i Hi. apply in_seq in Hi.
    cbn [to_array2 a_get]. rewrite !(nth_map _ cols j [] []) by exact Hj. rewrite !(nth_map _ (nth j cols []) i nnan nolevel) by lia. reflexivity.
  Qed.
End Columns.
