(* Proofs about interp_climatology: the whole array *)
From Coq Require Import ZArith List Bool Reals Lra Lia Classical_Prop.
From Verif Require Import Num Np NumFacts NpFacts Wrangling Spec_Finders Spec_Interp Proofs_Besthist Proofs_Interp.
Import ListNotations.
Local Open Scope R_scope.

Lemma mapM_raise {A B} (f : A -> res B) l e : (forall a, In a l -> f a = Raise e \/ exists b, f a = Ok b) ->
  ((exists a, In a l /\ f a = Raise e) -> mapM f l = Raise e) /\
  (mapM f l = Raise e \/ exists bs, mapM f l = Ok bs).
Proof.
  induction l as [|a l IH]; intros H; cbn [mapM].
  - split; [intros (a & [] & _)|right; eauto].
  - destruct IH as [I1 I2]; [intros b Hb; apply H; simpl; auto|].
    destruct (H a) as [E|(b & E)]; [simpl; auto| |]; rewrite E; cbn [bind]; [auto|].
    split.
    + intros (c & [->|Hc] & Ec); [congruence|]. rewrite I1 by eauto. reflexivity.
    + destruct I2 as [I2|(bs & I2)]; rewrite I2; cbn [bind]; eauto.
Qed.

Lemma max_ge l x : In x l -> (x <= fold_right Nat.max 0 l)%nat.
Proof. induction l; simpl; [tauto|]. intros [->|H]; [lia|]. specialize (IHl H). lia. Qed.
Lemma max_le l b : (forall x, In x l -> x <= b)%nat -> (fold_right Nat.max 0 l <= b)%nat.
Proof. induction l; simpl; intros H; [lia|]. assert (a <= b)%nat by (apply H; auto). assert (fold_right Nat.max 0 l <= b)%nat by (apply IHl; auto). lia. Qed.

Lemma finite3_level q : finite3 q = match level_of q with Some _ => true | None => false end.
Proof. destruct q as [[[] []] []]; reflexivity. Qed.
Lemma level_fin q a : level_of q = Some a -> q = fin3 a.
Proof. destruct q as [[[] []] []]; cbn; try discriminate. now intros [= <-]. Qed.

Section Grid.
  Variables gs gt gp : array2 XR.
  Hypothesis H1 : same_shape gs gt.
  Hypothesis H2 : same_shape gt gp.
  Notation C := (a_cols gs).
  Notation sam := (samples gs gt gp).

  Lemma levels_samples j : station_levels gs gt gp j = map fin3 (sam j).
  Proof.
    unfold station_levels, samples, column. destruct H1 as [-> _]. destruct H2 as [-> _].
    rewrite !combine_maps. generalize (seq 0 (a_rows gp)). induction l as [|i l IH]; auto.
    cbn [map flat_map filter]. rewrite finite3_level.
    destruct (a_get gs i j), (a_get gt i j), (a_get gp i j); cbn; rewrite IH; reflexivity.
  Qed.

  Definition M : nat := fold_right Nat.max 0%nat (map (fun j => length (sam j)) (seq 0 C)).
  Lemma M_ge j : (j < C)%nat -> (length (sam j) <= M)%nat.
  Proof. intros Hj. apply max_ge. apply in_map_iff. exists j. split; auto. apply in_seq. lia. Qed.
  Lemma M_le b : (forall j, (j < C)%nat -> (length (sam j) <= b)%nat) -> (M <= b)%nat.
  Proof. intros H. apply max_le. intros x Hx. apply in_map_iff in Hx. destruct Hx as (j & <- & Hj). apply in_seq in Hj. apply H. lia. Qed.

  Lemma cleaned_eq : (0 < C)%nat -> cleaned_grid_data gs gt gp =
    Ok (if Nat.eqb M 0 then None else Some (map (fun j => col (sam j) M) (seq 0 C))).
  Proof.
    intros HC. unfold cleaned_grid_data. destruct (Nat.eqb_spec C 0) as [Z|_]; [lia|].
    assert (E : map (@length _) (map (station_levels gs gt gp) (seq 0 C)) = map (fun j => length (sam j)) (seq 0 C)).
    { rewrite map_map. apply map_ext. intros j. now rewrite levels_samples, map_length. }
    rewrite E. fold M. destruct (Nat.eqb M 0); auto. do 2 f_equal. rewrite map_map. apply map_ext. intros j.
    rewrite levels_samples. reflexivity.
  Qed.

  (* one level, when there are samples *)
  Lemma level_ok q : (0 < C)%nat -> M <> 0%nat ->
    (~ troublesome gs gt gp q -> exists row, interp_level (map (fun j => col (sam j) M) (seq 0 C)) q = Ok row /\ row_gives gs gt gp q row) /\
    (troublesome gs gt gp q -> interp_level (map (fun j => col (sam j) M) (seq 0 C)) q = Raise ValueError).
  Proof.
    intros HC HM. unfold interp_level, troublesome, row_gives.
    assert (Hhd : length (hd [] (map (fun j => col (sam j) M) (seq 0 C))) = M).
    { destruct C as [|c] eqn:EC; [lia|]. cbn [seq map hd]. apply col_length. apply M_ge. lia. }
    rewrite Hhd. destruct q as [[qs qt] qp]. rewrite finite3_level.
    destruct (level_of (qs, qt, qp)) as [[[s t] p]|] eqn:El.
    - apply level_fin in El. unfold fin3 in El. injection El as -> -> ->. cbn [p_theta p_pres p_sal fst snd].
      destruct (Nat.eqb_spec M 1) as [M1|M1].
      + split; [|auto]. intros H. exfalso. apply H. exists s, t, p. split; auto. left. intros j Hj.
        pose proof (M_ge j Hj). lia.
      + destruct (mapM_raise (interp_station (Fin t) (Fin p)) (map (fun j => col (sam j) M) (seq 0 C)) ValueError) as [R1 R2].
        { intros c Hc. apply in_map_iff in Hc. destruct Hc as (j & <- & Hj). apply in_seq in Hj.
          destruct (station_ok (sam j) M t p (M_ge j ltac:(lia))) as [S1 S2].
          destruct (classic (only_isothermal (sam j) t)) as [I|I]; [left; auto|]. destruct (S1 I) as (o & E & _). eauto. }
        split.
        * intros H. destruct R2 as [R2|(bs & R2)].
          { exfalso. apply H. exists s, t, p. split; auto. right.
            apply NNPP. intros N.
            assert (G : forall l, (forall j, In j l -> (j < C)%nat) -> exists bs, mapM (interp_station (Fin t) (Fin p)) (map (fun j => col (sam j) M) l) = Ok bs).
            { induction l as [|j l IH]; intros Hl; cbn; [eauto|].
              assert (Hj : (j < C)%nat) by (apply Hl; simpl; auto).
              destruct (station_ok (sam j) M t p (M_ge j Hj)) as [S1 _].
              destruct S1 as (o & E & _); [intros I; apply N; eauto|]. rewrite E. cbn [bind].
              destruct IH as (bs & ->); [intros k Hk; apply Hl; simpl; auto|]. cbn. eauto. }
            destruct (G (seq 0 C)) as (bs & E); [intros j Hj; apply in_seq in Hj; lia|]. congruence. }
          exists bs. split; auto. assert (Lb := mapM_length _ _ _ R2). rewrite map_length, seq_length in Lb.
          split; auto. intros j Hj. apply mapM_ok in R2.
          assert (E : interp_station (Fin t) (Fin p) (col (sam j) M) = Ok (nth j bs (NaN, NaN))).
          { assert (G : forall l (b : list (XR * XR)), Forall2 (fun a b => interp_station (Fin t) (Fin p) a = Ok b) (map (fun j => col (sam j) M) l) b ->
              forall i, (i < length l)%nat -> interp_station (Fin t) (Fin p) (col (sam (nth i l 0%nat)) M) = Ok (nth i b (NaN, NaN))).
            { induction l as [|a l IH]; cbn; intros b F i Hi; [lia|]. inversion F; subst. destruct i; cbn; auto. apply IH; auto. lia. }
            specialize (G _ _ R2 j). rewrite seq_length, seq_nth in G by auto. apply G. auto. }
          destruct (station_ok (sam j) M t p (M_ge j Hj)) as [S1 S2].
          destruct (classic (only_isothermal (sam j) t)) as [I|I]; [rewrite S2 in E by auto; discriminate|].
          destruct (S1 I) as (o & E' & G). rewrite E in E'. injection E' as ->. exact G.
        * intros (s' & t' & p' & E & Q). cbn in E. injection E as <- <- <-. destruct Q as [Q|(j & Hj & I)].
          { exfalso. assert (M <= 1)%nat by now apply M_le. lia. }
          apply R1. exists (col (sam j) M). split; [apply in_map_iff; exists j; split; auto; apply in_seq; lia|].
          now apply (station_ok (sam j) M t p (M_ge j Hj)).
    - split; [|intros (s & t & p & E & _); congruence]. intros _. eexists. split; [reflexivity|].
      rewrite repeat_length, map_length, seq_length. split; auto. intros j Hj. apply nth_repeat.
  Qed.

  Lemma shapes_true : negb (((a_rows gs =? a_rows gt)%nat && (a_cols gs =? a_cols gt)%nat) &&
    ((a_rows gt =? a_rows gp)%nat && (a_cols gt =? a_cols gp)%nat)) = false.
  Proof. destruct H1 as [-> ->]. destruct H2 as [-> ->]. now rewrite !Nat.eqb_refl. Qed.

  Lemma no_samples_rows q : M = 0%nat -> row_gives gs gt gp q (repeat (NaN, NaN) C).
  Proof.
    intros HM. split; [apply repeat_length|]. intros j Hj. rewrite nth_repeat.
    destruct (level_of q) as [[[s t] p]|]; auto. right. split; auto. intros k [Hk _].
    pose proof (M_ge j Hj). lia.
  Qed.
  Lemma missing_rows float : M = 0%nat ->
    Forall2 (row_gives gs gt gp) float (map (fun _ => repeat (NaN, NaN) C) float).
  Proof. intros HM. induction float; constructor; auto. now apply no_samples_rows. Qed.

  Notation some_sample := (some_sample gs gt gp).
  Lemma M_some : M <> 0%nat <-> some_sample.
  Proof.
    split.
    - intros HM. apply NNPP. intros N. apply HM. assert (M <= 0)%nat; [|lia]. apply M_le. intros j Hj.
      destruct (sam j) eqn:E; auto. exfalso. apply N. exists j. rewrite E. split; auto. discriminate.
    - intros (j & Hj & E). pose proof (M_ge j Hj). destruct (sam j); [congruence|]. simpl in *. lia.
  Qed.

  Lemma interp_total float : (0 < C)%nat ->
    (some_sample /\ (exists q, In q float /\ troublesome gs gt gp q) /\ interp_climatology gs gt gp float = Raise ValueError) \/
    (~ (some_sample /\ exists q, In q float /\ troublesome gs gt gp q) /\
     exists r, interp_climatology gs gt gp float = Ok r /\ Forall2 (row_gives gs gt gp) float r).
  Proof.
    intros HC. unfold interp_climatology. cbv zeta. rewrite shapes_true. rewrite cleaned_eq by auto. cbn [bind].
    destruct (Nat.eqb_spec M 0) as [Z|Z].
    - right. split; [intros [S _]; apply M_some in S; congruence|]. eexists. split; [reflexivity|]. now apply missing_rows.
    - destruct (classic (exists q, In q float /\ troublesome gs gt gp q)) as [Q|Q].
      + left. split; [now apply M_some|]. split; auto. destruct Q as (q & Hq & T).
        apply mapM_raise.
        * intros a _. destruct (level_ok a HC Z) as [L1 L2]. destruct (classic (troublesome gs gt gp a)) as [I|I]; [left; auto|].
          destruct (L1 I) as (row & E & _). eauto.
        * exists q. split; auto. now apply level_ok.
      + right. split; [tauto|]. 
        assert (G : forall fl, (forall q, In q fl -> ~ troublesome gs gt gp q) ->
          exists r, mapM (interp_level (map (fun j => col (sam j) M) (seq 0 C))) fl = Ok r /\ Forall2 (row_gives gs gt gp) fl r).
        { induction fl as [|q fl IH]; intros Hf; cbn [mapM]; [eexists; split; [reflexivity|constructor]|].
          destruct (proj1 (level_ok q HC Z)) as (row & -> & G); [apply Hf; simpl; auto|]. cbn [bind].
          destruct IH as (r & -> & F); [intros a Ha; apply Hf; simpl; auto|]. cbn [bind]. eexists. split; [reflexivity|].
          constructor; auto. }
        apply G. intros q Hq T. apply Q. eauto.
  Qed.

  Lemma interp_no_stations float : C = 0%nat -> interp_climatology gs gt gp float = Raise ValueError.
  Proof.
    intros HC. unfold interp_climatology. cbv zeta. rewrite shapes_true. unfold cleaned_grid_data. rewrite HC. reflexivity.
  Qed.

  Lemma interp_rows float r : interp_climatology gs gt gp float = Ok r -> Forall2 (row_gives gs gt gp) float r.
  Proof.
    intros E. destruct (Nat.eq_dec C 0) as [Z|Z]; [rewrite interp_no_stations in E by auto; discriminate|].
    destruct (interp_total float ltac:(lia)) as [(_ & _ & Q)|(_ & r' & E' & F)]; congruence.
  Qed.
  Lemma interp_raises float e : interp_climatology gs gt gp float = Raise e <->
    e = ValueError /\ (C = 0%nat \/ (some_sample /\ exists q, In q float /\ troublesome gs gt gp q)).
  Proof.
    destruct (Nat.eq_dec C 0) as [Z|Z].
    - rewrite interp_no_stations by auto. split; [intros [= <-]; auto|]. intros [-> _]; auto.
    - destruct (interp_total float ltac:(lia)) as [(S & Q & ->)|(N & r' & -> & F)].
      + split; [intros [= <-]; auto|]. intros [-> _]; auto.
      + split; [discriminate|]. intros [_ [?|?]]; [lia|tauto].
  Qed.
End Grid.

Lemma interp_mismatch gs gt gp float : ~ (same_shape gs gt /\ same_shape gt gp) ->
  interp_climatology gs gt gp float = Ok (map (fun _ => repeat (NaN, NaN) (a_cols gs)) float).
Proof.
  intros H. unfold interp_climatology. cbv zeta.
  destruct (Nat.eqb_spec (a_rows gs) (a_rows gt)), (Nat.eqb_spec (a_cols gs) (a_cols gt)),
    (Nat.eqb_spec (a_rows gt) (a_rows gp)), (Nat.eqb_spec (a_cols gt) (a_cols gp)); cbn [andb negb]; try reflexivity.
  exfalso. apply H. unfold same_shape. auto.
Qed.

Lemma closest_unique l v p k k' : closest l v p k -> closest l v p k' -> k = k'.
Proof.
  intros (E & S & C) (E' & S' & C'). destruct (C k' E' S') as [A B]. destruct (C' k E S) as [A' B'].
  destruct (lt_eq_lt_dec k k') as [[L| ->]|L]; auto; [specialize (B' L)|specialize (B L)]; lra.
Qed.
Lemma gives_unique l v p o o' : station_gives l v p o -> station_gives l v p o' -> o = o'.
Proof.
  intros [(k & K & ->)|[N ->]] [(k' & K' & ->)|[N' ->]]; auto.
  - now rewrite (closest_unique _ _ _ _ _ K K').
  - exfalso. apply (N' k). apply K.
  - exfalso. apply (N k'). apply K'.
Qed.
Lemma Forall2_nth {A B} (P : A -> B -> Prop) l r da db i : Forall2 P l r -> (i < length l)%nat -> P (nth i l da) (nth i r db).
Proof. intros F. revert i. induction F; intros i Hi; [simpl in Hi; lia|]. destruct i; simpl; auto. apply IHF. simpl in Hi. lia. Qed.

Lemma interp_independent gs gt gp gs' gt' gp' float r r' j j' :
  same_shape gs gt -> same_shape gt gp -> same_shape gs' gt' -> same_shape gt' gp' ->
  (j < a_cols gs)%nat -> (j' < a_cols gs')%nat -> samples gs gt gp j = samples gs' gt' gp' j' ->
  interp_climatology gs gt gp float = Ok r -> interp_climatology gs' gt' gp' float = Ok r' ->
  forall i, (i < length float)%nat -> nth j (nth i r []) (NaN, NaN) = nth j' (nth i r' []) (NaN, NaN).
Proof.
  intros A1 A2 B1 B2 Hj Hj' Es E E' i Hi. apply interp_rows in E; auto. apply interp_rows in E'; auto.
  destruct (Forall2_nth _ _ _ (NaN, NaN, NaN) [] i E Hi) as [_ F].
  destruct (Forall2_nth _ _ _ (NaN, NaN, NaN) [] i E' Hi) as [_ F'].
  specialize (F j Hj). specialize (F' j' Hj'). destruct (level_of _) as [[[s t] p]|]; [|congruence].
  rewrite <- Es in F'. exact (gives_unique _ _ _ _ _ F F').
Qed.

(* interpolated values lie between the two samples *)
Lemma between_range f l v k : encloses l v k -> sloped l k ->
  Rmin (at_ f l k) (at_ f l (S k)) <= between f l v k <= Rmax (at_ f l k) (at_ f l (S k)).
Proof.
  intros [_ E] S. unfold between, sloped in *.
  set (a := at_ p_theta l k) in *. set (b := at_ p_theta l (Datatypes.S k)) in *.
  set (x := at_ f l k). set (y := at_ f l (Datatypes.S k)).
  assert (W : 0 <= (v - a) / (b - a) <= 1).
  { destruct E as [E|E].
    - assert (0 < b - a) by lra. split; [apply Rmult_le_pos; [lra|left; now apply Rinv_0_lt_compat]|].
      apply (Rmult_le_reg_r (b - a)); auto. unfold Rdiv. rewrite Rmult_assoc, Rinv_l by lra. lra.
    - replace ((v - a) / (b - a)) with ((a - v) / (a - b)) by (field; lra).
      assert (0 < a - b) by lra. split; [apply Rmult_le_pos; [lra|left; now apply Rinv_0_lt_compat]|].
      apply (Rmult_le_reg_r (a - b)); auto. unfold Rdiv. rewrite Rmult_assoc, Rinv_l by lra. lra. }
  set (w := (v - a) / (b - a)) in *. clearbody w.
  unfold Rmin, Rmax. destruct (Rle_dec x y); nra.
Qed.

Lemma interp_missing gs gt gp float r i j : same_shape gs gt -> same_shape gt gp ->
  interp_climatology gs gt gp float = Ok r -> (i < length float)%nat -> (j < a_cols gs)%nat ->
  let nothing := match level_of (nth i float (NaN, NaN, NaN)) with
                 | None => True
                 | Some (_, t, _) => forall k, ~ encloses (samples gs gt gp j) t k
                 end in
  (fst (nth j (nth i r []) (NaN, NaN)) = NaN <-> nothing) /\ (snd (nth j (nth i r []) (NaN, NaN)) = NaN <-> nothing).
Proof.
  intros A1 A2 E Hi Hj nothing. apply interp_rows in E; auto.
  destruct (Forall2_nth _ _ _ (NaN, NaN, NaN) [] i E Hi) as [_ F]. specialize (F j Hj). unfold nothing. clear nothing.
  destruct (level_of _) as [[[s t] p]|].
  - destruct F as [(k & K & ->)|[N ->]]; cbn [fst snd].
    + split; (split; [discriminate|]); intros N; exfalso; apply (N k), K.
    + tauto.
  - rewrite F. cbn. tauto.
Qed.
Lemma interp_no_climatology gs gt gp float : same_shape gs gt -> same_shape gt gp -> (0 < a_cols gs)%nat ->
  (forall j, (j < a_cols gs)%nat -> samples gs gt gp j = []) ->
  interp_climatology gs gt gp float = Ok (map (fun _ => repeat (NaN, NaN) (a_cols gs)) float).
Proof.
  intros A1 A2 HC N. unfold interp_climatology. cbv zeta. rewrite shapes_true by auto. rewrite cleaned_eq by auto. cbn [bind].
  assert (M gs gt gp = 0%nat) as ->; [|reflexivity].
  assert (M gs gt gp <= 0)%nat; [|lia]. apply M_le. intros j Hj. now rewrite N.
Qed.

(* two levels, 10 and 5 degrees, or both 5 *)
Definition demo (a b : R) : array2 XR := mkArray2 XR 2%nat 1%nat (fun i _ => match i with O => Fin a | _ => Fin b end).
Lemma demo_shape a b c d : same_shape (demo a b) (demo c d).
Proof. split; reflexivity. Qed.
Lemma demo_isothermal : interp_climatology (demo 35 36) (demo 5 5) (demo 100 200) [(Fin 35, Fin 5, Fin 150)] = Raise ValueError.
Proof.
  apply interp_raises; [apply demo_shape|apply demo_shape|]. split; auto. right. split.
  - exists 0%nat. split; [cbn; lia|discriminate].
  - exists (Fin 35, Fin 5, Fin 150). split; [simpl; auto|]. exists 35, 5, 150. split; auto. right. exists 0%nat.
    split; [cbn; lia|]. split.
    + exists 0%nat. split; [cbn; lia|]. unfold at_, p_theta. cbn. lra.
    + intros k [Hk _] S. cbn in Hk. assert (k = 0)%nat as -> by lia. apply S. reflexivity.
Qed.
Lemma demo_sloped : interp_climatology (demo 35 36) (demo 10 5) (demo 100 200) [(Fin 35, Fin 8, Fin 150)] = Ok [[(Fin (177/5), Fin 140)]].
Proof.
  destruct (interp_total (demo 35 36) (demo 10 5) (demo 100 200) (demo_shape _ _ _ _) (demo_shape _ _ _ _) [(Fin 35, Fin 8, Fin 150)])
    as [(_ & (q & [<-|[]] & T) & _)|(_ & r & E & F)]; [cbn; lia| |].
  - exfalso. destruct T as (s & t & p & E & Q). cbn in E. injection E as <- <- <-. destruct Q as [Q|(j & Hj & I)].
    + specialize (Q 0%nat ltac:(cbn; lia)). cbn in Q. lia.
    + cbn in Hj. assert (j = 0)%nat as -> by lia. destruct I as [_ I]. apply (I 0%nat).
      * split; [cbn; lia|]. unfold at_, p_theta. cbn. lra.
      * unfold sloped, at_, p_theta. cbn. lra.
  - inversion F as [|a row fl rr G F']; subst. inversion F'; subst. rewrite E. destruct G as [Lr G]. cbn in Lr.
    destruct row as [|o [|]]; try discriminate. specialize (G 0%nat ltac:(cbn; lia)). cbn in G.
    destruct G as [(k & ((Hk & _) & _) & ->)|[N ->]].
    + cbn in Hk. assert (k = 0)%nat as -> by lia. unfold between, at_, p_sal, p_pres, p_theta. cbn.
      match goal with |- Ok [[(Fin ?a, Fin ?b)]] = _ => replace a with (177/5) by field; replace b with 140 by field end. reflexivity.
    + exfalso. apply (N 0%nat). split; [cbn; lia|]. unfold at_, p_theta. cbn. lra.
Qed.
Lemma demo_nonempty : samples (demo 35 36) (demo 5 5) (demo 100 200) 0 <> [].
Proof. discriminate. Qed.
