(* interp_climatology in double precision: the whole array *)
From Coq Require Import ZArith List Bool Reals Lra Lia Classical_Prop.
From Flocq Require Import Core.Core IEEE754.BinarySingleNaN.
From Verif Require Import Num Np NumFacts NpFacts Wrangling Spec_Finders Spec_Float Spec_Interp Spec_FloatInterp
  Proofs_Besthist Proofs_Interp Proofs_Interp2
  Proofs_Float1 Proofs_Float2 Proofs_Float3 Proofs_Float5 Proofs_FloatInterp Proofs_FloatInterp2 Float.
Import ListNotations.
Local Open Scope R_scope.

Lemma real_complete (s t p : f64) :
  complete (real s) (real t) (real p) = if finite3 (s, t, p) then Some (val3 (s, t, p)) else None.
Proof. destruct s as [|[]| |], t as [|[]| |], p as [|[]| |]; reflexivity. Qed.
Lemma level_real (q : triple) : level_of (real3 q) = if finite3 q then Some (val3 q) else None.
Proof. destruct q as [[s t] p]. apply real_complete. Qed.
Lemma finite3_all (q : triple) : finite3 q = true -> finite (fst (fst q)) /\ finite (snd (fst q)) /\ finite (snd q).
Proof. destruct q as [[s t] p]. unfold finite3. rewrite !andb_true_iff. intros [[A B] C]. auto. Qed.

Section Grid.
  Variables gs gt gp : array2 f64.
  Hypothesis H1 : same_shape64 gs gt.
  Hypothesis H2 : same_shape64 gt gp.
  Hypothesis SG : sea_grid gs gt gp.
  Notation C := (a_cols gs).
  Notation sam := (samples64 gs gt gp).
  Notation lev := (station_levels gs gt gp).
  Notation trouble q := (troublesome (reals gs) (reals gt) (reals gp) (real3 q)).

  Lemma lev_samples j : sam j = map val3 (lev j).
  Proof.
    unfold station_levels, samples64, samples, column. cbn [a_rows reals a_get]. destruct H1 as [<- _]. destruct H2 as [<- _]. destruct H1 as [<- _].
    rewrite !combine_maps. generalize (seq 0 (a_rows gs)). induction l as [|i l IH]; [reflexivity|].
    cbn [map flat_map filter]. rewrite IH, real_complete. destruct (finite3 _); reflexivity.
  Qed.
  Lemma lev_good j : (j < C)%nat -> Forall good3 (lev j).
  Proof.
    intros Hj. apply Forall_forall. intros q Hq. assert (F : finite3 q = true) by (apply filter_In in Hq; apply Hq).
    destruct (finite3_all q F) as (A & B & D). repeat split; auto; apply (SG j); auto; rewrite lev_samples; now apply in_map.
  Qed.

  Definition N : nat := fold_right Nat.max 0%nat (map (fun j => length (lev j)) (seq 0 C)).
  Lemma N_ge j : (j < C)%nat -> (length (lev j) <= N)%nat.
  Proof. intros Hj. apply max_ge. apply in_map_iff. exists j. split; auto. apply in_seq. lia. Qed.
  Lemma N_le b : (forall j, (j < C)%nat -> (length (lev j) <= b)%nat) -> (N <= b)%nat.
  Proof. intros H. apply max_le. intros x Hx. apply in_map_iff in Hx. destruct Hx as (j & <- & Hj). apply in_seq in Hj. apply H. lia. Qed.
  Lemma sam_length j : length (sam j) = length (lev j).
  Proof. now rewrite lev_samples, map_length. Qed.

  Notation grid := (map (fun j => scol (lev j) N) (seq 0 C)).
  Lemma cleaned64 : (0 < C)%nat -> cleaned_grid_data gs gt gp = Ok (if Nat.eqb N 0 then None else Some grid).
  Proof.
    intros HC. unfold cleaned_grid_data. destruct (Nat.eqb_spec C 0) as [Z|_]; [lia|].
    rewrite !map_map. fold N. destruct (Nat.eqb N 0); auto.
  Qed.

  Lemma level64 q : (0 < C)%nat -> N <> 0%nat -> (forall a, level_of (real3 q) = Some a -> sea_sample a) ->
    (~ trouble q -> exists row, interp_level grid q = Ok row /\ row_near gs gt gp q row) /\
    (trouble q -> interp_level grid q = Raise ValueError).
  Proof.
    intros HC HM SL. unfold interp_level, troublesome, row_near. rewrite level_real in *.
    assert (Hhd : length (hd [] grid) = N).
    { destruct C as [|c] eqn:EC; [lia|]. cbn [seq map hd]. apply scol_length. apply N_ge. lia. }
    rewrite Hhd. destruct q as [[s t] p]. destruct (finite3 (s, t, p)) eqn:Ef.
    - destruct (finite3_all _ Ef) as (Fs & Ft & Fp). cbn [fst snd] in Fs, Ft, Fp. specialize (SL _ eq_refl).
      destruct SL as (_ & Bt & Bp & Nt). unfold val3, p_theta, p_pres in Bt, Bp, Nt |- *. cbn [fst snd] in Bt, Bp, Nt |- *.
      assert (Tt : tame t) by (split; auto).
      assert (ST : forall j, (j < C)%nat ->
        (~ only_isothermal (sam j) (val t) -> exists o, interp_station t p (scol (lev j) N) = Ok o /\ near_gives (sam j) (val t) (val p) o) /\
        (only_isothermal (sam j) (val t) -> interp_station t p (scol (lev j) N) = Raise ValueError)).
      { intros j Hj. rewrite lev_samples. apply station_near; auto using N_ge, lev_good. }
      destruct (Nat.eqb_spec N 1) as [M1|M1].
      + split; [|auto]. intros H. exfalso. apply H. do 3 eexists. split; [reflexivity|]. left. intros j Hj.
        change (length (sam j) <= 1)%nat. rewrite sam_length. pose proof (N_ge j Hj). lia.
      + destruct (mapM_raise (interp_station t p) grid ValueError) as [R1 R2].
        { intros c Hc. apply in_map_iff in Hc. destruct Hc as (j & <- & Hj). apply in_seq in Hj.
          destruct (ST j ltac:(lia)) as [S1 S2].
          destruct (classic (only_isothermal (sam j) (val t))) as [I|I]; [left; auto|]. destruct (S1 I) as (o & E & _). eauto. }
        split.
        * intros H.
          assert (NI : forall j, (j < C)%nat -> ~ only_isothermal (sam j) (val t)).
          { intros j Hj I. apply H. do 3 eexists. split; [reflexivity|]. right. exists j. split; auto. }
          destruct R2 as [R2|(bs & R2)].
          { exfalso. 
            assert (G : forall l, (forall j, In j l -> (j < C)%nat) -> exists bs, mapM (interp_station t p) (map (fun j => scol (lev j) N) l) = Ok bs).
            { induction l as [|j l IH]; intros Hl; cbn [map mapM]; [eauto|].
              assert (Hj : (j < C)%nat) by (apply Hl; simpl; auto).
              destruct (proj1 (ST j Hj) (NI j Hj)) as (o & E & _). rewrite E. cbn [bind].
              destruct IH as (bs & ->); [intros k Hk; apply Hl; simpl; auto|]. cbn [bind]. eauto. }
            destruct (G (seq 0 C)) as (bs & E); [intros j Hj; apply in_seq in Hj; lia|]. congruence. }
          exists bs. split; auto. assert (Lb := mapM_length _ _ _ R2). rewrite map_length, seq_length in Lb.
          split; auto. intros j Hj. apply mapM_ok in R2.
          assert (E : interp_station t p (scol (lev j) N) = Ok (nth j bs nan2)).
          { assert (G : forall l (b : list (f64 * f64)), Forall2 (fun a b => interp_station t p a = Ok b) (map (fun j => scol (lev j) N) l) b ->
              forall i, (i < length l)%nat -> interp_station t p (scol (lev (nth i l 0%nat)) N) = Ok (nth i b nan2)).
            { induction l as [|a l IH]; cbn [map length nth]; intros b F i Hi; [lia|]. inversion F; subst. destruct i; cbn [nth]; auto. apply IH; auto. lia. }
            specialize (G _ _ R2 j). rewrite seq_length, seq_nth in G by auto. apply G. auto. }
          destruct (proj1 (ST j Hj) (NI j Hj)) as (o & E' & G). rewrite E in E'.
          assert (Q : nth j bs nan2 = o) by congruence. rewrite Q. exact G.
        * intros (s' & t' & p' & E & Q). assert (E2 : val t = t') by congruence. subst t'. destruct Q as [Q|(j & Hj & I)].
          { exfalso. assert (N <= 1)%nat; [|lia]. apply N_le. intros j Hj. rewrite <- sam_length. now apply (Q j). }
          apply R1. exists (scol (lev j) N). split; [apply in_map_iff; exists j; split; auto; apply in_seq; cbn [a_cols reals] in Hj; lia|].
          now apply ST.
    - split; [|intros (s' & t' & p' & E & _); congruence]. intros _. eexists. split; [reflexivity|].
      rewrite repeat_length, map_length, seq_length. split; auto. intros j Hj. apply nth_repeat.
  Qed.

  Lemma shapes64 : negb (((a_rows gs =? a_rows gt)%nat && (a_cols gs =? a_cols gt)%nat) &&
    ((a_rows gt =? a_rows gp)%nat && (a_cols gt =? a_cols gp)%nat)) = false.
  Proof. destruct H1 as [-> ->]. destruct H2 as [-> ->]. now rewrite !Nat.eqb_refl. Qed.

  Lemma missing64 float : N = 0%nat -> Forall2 (row_near gs gt gp) float (map (fun _ => repeat nan2 C) float).
  Proof.
    intros HM. induction float as [|q float IH]; constructor; auto. split; [apply repeat_length|]. intros j Hj. rewrite nth_repeat.
    destruct (level_of (real3 q)) as [[[s t] p]|]; auto. right. split; auto. intros k [Hk _].
    pose proof (N_ge j Hj) as Q. rewrite sam_length in Hk. lia.
  Qed.

  Notation some := (some_sample (reals gs) (reals gt) (reals gp)).
  Lemma N_some : N <> 0%nat <-> some.
  Proof.
    split.
    - intros HM. apply NNPP. intros Q. apply HM. assert (N <= 0)%nat; [|lia]. apply N_le. intros j Hj.
      rewrite <- sam_length. destruct (sam j) eqn:E; auto. exfalso. apply Q. exists j. split; auto. intros Z.
      change (sam j = []) in Z. rewrite Z in E. discriminate.
    - intros (j & Hj & E). change (sam j <> []) in E. pose proof (N_ge j Hj) as Q. rewrite <- sam_length in Q.
      destruct (sam j); [congruence|]. simpl in *. lia.
  Qed.

  Section Float.
    Variable float : list triple.
    Hypothesis SF : sea_levels float.

    Lemma interp64 : (0 < C)%nat ->
      (some /\ (exists q, In q float /\ trouble q) /\ interp_climatology gs gt gp float = Raise ValueError) \/
      (~ (some /\ exists q, In q float /\ trouble q) /\
       exists r, interp_climatology gs gt gp float = Ok r /\ Forall2 (row_near gs gt gp) float r).
    Proof.
      intros HC. unfold interp_climatology. cbv zeta. rewrite shapes64. rewrite cleaned64 by auto. cbn [bind].
      destruct (Nat.eqb_spec N 0) as [Z|Z].
      - right. split; [intros [S _]; apply N_some in S; congruence|]. eexists. split; [reflexivity|]. now apply missing64.
      - assert (LV : forall q, In q float -> (~ trouble q -> exists row, interp_level grid q = Ok row /\ row_near gs gt gp q row) /\
          (trouble q -> interp_level grid q = Raise ValueError)).
        { intros q Hq. apply level64; auto. intros a Ha. now apply (SF q). }
        destruct (classic (exists q, In q float /\ trouble q)) as [Q|Q].
        + left. split; [now apply N_some|]. split; auto. destruct Q as (q & Hq & T).
          apply mapM_raise.
          * intros a Ia. destruct (LV a Ia) as [L1 L2]. destruct (classic (trouble a)) as [I|I]; [left; auto|].
            destruct (L1 I) as (row & E & _). eauto.
          * exists q. split; auto. now apply LV.
        + right. split; [tauto|].
          assert (G : forall fl, (forall q, In q fl -> In q float) ->
            exists r, mapM (interp_level grid) fl = Ok r /\ Forall2 (row_near gs gt gp) fl r).
          { induction fl as [|q fl IH]; intros Hf; cbn [mapM]; [eexists; split; [reflexivity|constructor]|].
            assert (Iq : In q float) by (apply Hf; simpl; auto).
            destruct (proj1 (LV q Iq)) as (row & -> & G); [intros T; apply Q; eauto|]. cbn [bind].
            destruct IH as (r & -> & F); [intros a Ha; apply Hf; simpl; auto|]. cbn [bind]. eexists. split; [reflexivity|].
            constructor; auto. }
          apply G. auto.
    Qed.
    Lemma interp64_empty : C = 0%nat -> interp_climatology gs gt gp float = Raise ValueError.
    Proof.
      intros HC. unfold interp_climatology. cbv zeta. rewrite shapes64. unfold cleaned_grid_data. rewrite HC. reflexivity.
    Qed.
    Lemma interp_near r : interp_climatology gs gt gp float = Ok r -> Forall2 (row_near gs gt gp) float r.
    Proof.
      intros E. destruct (Nat.eq_dec C 0) as [Z|Z]; [rewrite interp64_empty in E by auto; discriminate|].
      destruct (interp64 ltac:(lia)) as [(_ & _ & Q)|(_ & r' & E' & F)]; congruence.
    Qed.
    Lemma interp64_raises e : interp_climatology gs gt gp float = Raise e <->
      e = ValueError /\ (C = 0%nat \/ (some /\ exists q, In q float /\ trouble q)).
    Proof.
      destruct (Nat.eq_dec C 0) as [Z|Z].
      - rewrite interp64_empty by auto. split; [intros E; assert (e = ValueError) by congruence; auto|]. intros [-> _]; auto.
      - destruct (interp64 ltac:(lia)) as [(S & Q & ->)|(Q & r' & -> & F)].
        + split; [intros E; assert (e = ValueError) by congruence; auto|]. intros [-> _]; auto.
        + split; [discriminate|]. intros [_ [?|?]]; [lia|tauto].
    Qed.
  End Float.
End Grid.
