(* The selection of find_besthist over any numbers, for drawn positions that are positions *)
From Coq Require Import ZArith List Bool Lia Permutation Sorted.
From Verif Require Import Num Np NumFacts NpFacts Utilities Finders Proofs_Besthist Proofs_Float10.
Import ListNotations.

Section Any.
  Context {T : Type} `{Num T} `{NumT T}.

  (* one separation: what the vectorised call computes for one cast *)
  Definition pv_of (use : Z) (c : cast T) : res T :=
    if Z.eqb use 1 then potential_vorticity (c_lat c) (c_z c) else Ok (nofZ 0).
  Definition sep (lat long date : T) (use : Z) (slong slat sage sphi pvf : T) (c : cast T) : res T :=
    let* pv := pv_of use c in
    spatial_correlation (c_long c) long slong (c_lat c) lat slat (c_date c) date sage pv pvf sphi.

  Lemma mapM_cases {A B} (f : A -> res B) l :
    (exists vs, mapM f l = Ok vs /\ Forall2 (fun a b => f a = Ok b) l vs)
    \/ (exists e, mapM f l = Raise e /\ exists a, In a l /\ exists e', f a = Raise e').
  Proof.
    induction l as [|a l IH]; [left; exists []; split; [reflexivity|constructor]|].
    cbn [mapM]. destruct (f a) as [b|e] eqn:E.
    - cbn [bind]. destruct IH as [(vs & -> & F)|(e & -> & a' & I & X)].
      + left. exists (b :: vs). split; [reflexivity|]. constructor; auto.
      + right. exists e. split; [reflexivity|]. exists a'. split; [now right|exact X].
    - right. exists e. split; [reflexivity|]. exists a. split; [now left|eauto].
  Qed.

  Lemma Forall2_combine {A B} (P : A -> B -> Prop) l vs : Forall2 P l vs -> Forall (fun ab => P (fst ab) (snd ab)) (combine l vs).
  Proof. induction 1; constructor; auto. Qed.

  Lemma pv_casts_cases use (l : list (cast T)) : l <> [] ->
    (exists vs, pv_casts use l = Ok vs /\ Forall2 (fun c v => pv_of use c = Ok v) l vs)
    \/ (exists e, pv_casts use l = Raise e /\ exists c, In c l /\ exists e', pv_of use c = Raise e').
  Proof.
    intros N. unfold pv_casts, use_pv, pv_of. destruct (Z.eqb use 1).
    - destruct l as [|c l]; [congruence|]. exact (mapM_cases _ (c :: l)).
    - left. eexists. split; [reflexivity|]. clear N. induction l; constructor; auto.
  Qed.

  Lemma correlations_cases lat long date use slong slat sage sphi pvf (l : list (cast T)) : l <> [] ->
    (exists vs, correlations lat long date use slong slat sage sphi pvf l = Ok vs
       /\ Forall2 (fun c v => sep lat long date use slong slat sage sphi pvf c = Ok v) l vs)
    \/ (exists e, correlations lat long date use slong slat sage sphi pvf l = Raise e
       /\ exists c, In c l /\ exists e', sep lat long date use slong slat sage sphi pvf c = Raise e').
  Proof.
    intros N. unfold correlations.
    destruct (pv_casts_cases use l N) as [(ps & -> & F)|(e & -> & c & I & e' & X)]; cbn [bind].
    - set (f := fun cp : cast T * T => _). assert (V : vectorize f (combine l ps) = mapM f (combine l ps)).
      { destruct F; [congruence|reflexivity]. }
      rewrite V. clear V. destruct (mapM_cases f (combine l ps)) as [(vs & -> & G)|(e & -> & cp & I & e' & X)].
      + left. exists vs. split; [reflexivity|]. clear N. revert vs G. induction F as [|c p l ps Ec F IH]; intros vs G.
        * inversion G. constructor.
        * cbn [combine] in G. inversion G as [|? ? ? ? Ev G']; subst. constructor; [|now apply IH].
          unfold sep. rewrite Ec. exact Ev.
      + right. exists e. split; [reflexivity|]. exists (fst cp). split.
        * destruct cp as [c p]. exact (in_combine_l _ _ _ _ I).
        * exists e'. unfold sep. pose proof (Forall2_combine _ _ _ F) as Q. rewrite Forall_forall in Q.
          rewrite (Q cp I). exact X.
    - right. exists e. split; [reflexivity|]. exists c. split; [exact I|]. exists e'. unfold sep. now rewrite X.
  Qed.

  Lemma correlations_none lat long date use slong slat sage sphi pvf :
    exists e, correlations lat long date use slong slat sage sphi pvf (@nil (cast T)) = Raise e.
  Proof. unfold correlations, pv_casts. destruct (use_pv use); eexists; reflexivity. Qed.

  Lemma Forall2_at {A B} (P : A -> B -> Prop) l vs (da : A) (db : B) : Forall2 P l vs ->
    forall i, (i < length l)%nat -> P (nth i l da) (nth i vs db).
  Proof. induction 1; intros [|i] Hi; cbn in *; try lia; auto. apply IHForall2. lia. Qed.
  Lemma Forall2_size {A B} (P : A -> B -> Prop) l vs : Forall2 P l vs -> length l = length vs.
  Proof. induction 1; cbn; congruence. Qed.

  Context {rng : Type} (seed : Z -> rng) (rand : rng -> nat -> list T * rng) (qs : list T -> list nat).
  Variable na : T -> T -> Prop.
  Hypothesis Hqs : forall l, Permutation (qs l) (seq 0 (length l))
    /\ forall i j, (i <= j < length l)%nat -> na (nth (nth i (qs l) 0%nat) l nnan) (nth (nth j (qs l) 0%nat) l nnan).
  Hypothesis Hdraw : forall g n k, (0 < n)%nat -> (Z.of_nat n < 2 ^ 53)%Z ->
    exists zs, Forall2 (position n) (index_rand n (fst (rand g k))) zs
      /\ StronglySorted lt zs /\ (forall i, In i zs -> (i < n)%nat) /\ (length zs <= k)%nat /\ ((0 < k)%nat -> zs <> []).
  Variables lat long date latL latS longL longS phiL phiS ageL ageS : T.
  Variable pvu : Z.
  Notation select := (besthist_select seed rand qs lat long date latL latS longL longS phiL phiS ageL ageS pvu).
  Notation sepL := (sep lat long date pvu longL latL ageL phiL).
  Notation sepS := (sep lat long date pvu longS latS ageS phiS).
  Definition rk (a b : res T) : Prop := exists u v, a = Ok u /\ b = Ok v /\ na u v.

  Lemma select_any (grid : list (cast T)) (pvf : T) (ie : list nat) (m : Z) (g0 : rng) :
    (Z.of_nat (length ie) < 2 ^ 53)%Z -> (m < Z.of_nat (length ie))%Z ->
    (forall i, In i ie -> (i < length grid)%nat) ->
    let at_ i := nth i grid dcast in
    let out := fst (select grid pvf ie m g0) in
    (exists e, out = Raise e /\ ((exists c e', In c grid /\ (sepL pvf c = Raise e' \/ sepS pvf c = Raise e'))
                                 \/ (m <= 0)%Z \/ (Z.of_nat (length ie) <= 2 * ceil3 m)%Z))
    \/ (0 < m)%Z /\ (2 * ceil3 m < Z.of_nat (length ie))%Z /\ exists r l s d,
      out = (if Nat.eqb (length s) 0 then Raise ValueError else Ok (r ++ l ++ s)%list)
      /\ Permutation (r ++ l ++ s ++ d) ie
      /\ (1 <= length r <= Z.to_nat (ceil3 m))%nat
      /\ (length r + length l = 2 * Z.to_nat (ceil3 m))%nat
      /\ length s = Nat.min (prefix_len (m - 2 * ceil3 m) (length ie - 2 * Z.to_nat (ceil3 m))) (length ie - 2 * Z.to_nat (ceil3 m))
      /\ (forall i j, In i l -> In j (s ++ d) -> rk (sepL pvf (at_ i)) (sepL pvf (at_ j)))
      /\ (forall i j, In i s -> In j d -> rk (sepS pvf (at_ i)) (sepS pvf (at_ j))).
  Proof.
    intros H53 Hn Hie at_. cbv zeta.
    set (n := length ie) in *. set (c := Z.to_nat (ceil3 m)).
    unfold besthist_select. fold n.
    destruct (Z.ltb_spec (ceil3 m) 0) as [Hneg|Hc].
    { left. eexists. split; [reflexivity|]. right. left. unfold ceil3 in Hneg.
      pose proof (Z.div_mod (-m) 3 ltac:(lia)). pose proof (Z.mod_pos_bound (-m) 3 ltac:(lia)). lia. }
    fold c.
    assert (Hcm : (m <= 3 * ceil3 m < m + 3)%Z).
    { unfold ceil3. pose proof (Z.div_mod (-m) 3 ltac:(lia)). pose proof (Z.mod_pos_bound (-m) 3 ltac:(lia)). lia. }
    destruct (Nat.eq_dec n 0) as [Z0|Hn0'].
    { left. rewrite Z0. destruct (rand _ c) as [draws g2]. cbn [seq filter fst].
      destruct (correlations_none lat long date pvu longL latL ageL phiL pvf) as (e & E).
      exists e. split; [|right; left; lia]. change (take dcast (take dcast grid ie) []) with (@nil (cast T)). now rewrite E. }
    assert (Hn0 : (0 < n)%nat) by lia.
    destruct (Hdraw (seed (Z.of_nat n)) n c Hn0 H53) as (zs & Ez & Sz & Hz & Lz & Nz).
    destruct (rand (seed (Z.of_nat n)) c) as [draws g2] eqn:Er. cbn [fst] in *.
    set (irand := index_rand n draws) in *.
    assert (Lir : length irand = length zs) by exact (Forall2_size _ _ _ Ez).
    rewrite Lir.
    assert (Ef : filter (fun i => negb (existsb (fun x : T => neqb (nofZ (Z.of_nat i)) x) irand)) (seq 0 n)
                 = filter (fun i => negb (existsb (Nat.eqb i) zs)) (seq 0 n)).
    { apply filter_ext_in. intros i Hi. f_equal. apply in_seq in Hi. clear -Ez Hi.
      induction Ez as [|x k l ks P F IH]; [reflexivity|]. cbn [existsb]. rewrite IH. f_equal. apply P. lia. }
    rewrite Ef. clear Ef. set (rem := filter (fun i => negb (existsb (Nat.eqb i) zs)) (seq 0 n)).
    assert (Pz : Permutation (zs ++ rem) (seq 0 n)).
    { rewrite (sorted_perm_filter zs n Sz Hz) at 1. apply filter_split_perm. }
    assert (Lrem : (length zs + length rem = n)%nat).
    { rewrite <- app_length, (Permutation_length Pz). apply seq_length. }
    assert (Hrem : forall i, In i rem -> (i < n)%nat).
    { intros i Hi. unfold rem in Hi. apply filter_In in Hi as [Hi _]. apply in_seq in Hi. lia. }
    set (rr := length rem) in *. set (L := (2 * c - length zs)%nat).
    assert (HLz : (ceil3 m + ceil3 m - Z.of_nat (length zs))%Z = Z.of_nat L) by lia.
    rewrite HLz. rewrite Nat2Z.id.
    (* remaining casts *)
    set (hist := take dcast grid ie).
    set (gtake := fun idx => take dcast hist idx).
    fold (gtake rem).
    assert (Hat : forall idx z, (z < length idx)%nat -> (forall i, In i idx -> (i < n)%nat) ->
              nth z (gtake idx) dcast = at_ (nth (nth z idx 0%nat) ie 0%nat)).
    { intros idx z Hzl Hi. unfold gtake, hist, take, at_.
      rewrite (nth_map (fun i => nth i (map (fun i0 => nth i0 grid dcast) ie) dcast) _ _ dcast 0%nat) by auto.
      apply (nth_map (fun i0 => nth i0 grid dcast)). apply Hi, nth_In, Hzl. }
    assert (Hincl : forall idx, (forall i, In i idx -> (i < n)%nat) -> incl (gtake idx) grid).
    { intros idx Hi x Hx. unfold gtake, hist, take in Hx. apply in_map_iff in Hx as (i & <- & Hii).
      rewrite (nth_map (fun i => nth i grid dcast) ie i dcast 0%nat) by auto. apply nth_In, Hie, nth_In. auto. }
    assert (Lgt : forall idx, length (gtake idx) = length idx) by (intros; apply take_length).
    destruct (list_eq_nil_dec rem) as [Erem|Nrem'].
    { left. assert (Z0 : rr = 0%nat) by (unfold rr; now rewrite Erem). rewrite Erem.
      destruct (correlations_none lat long date pvu longL latL ageL phiL pvf) as (e & E).
      exists e. change (gtake []) with (@nil (cast T)). rewrite E. split; [reflexivity|]. right. right. lia. }
    assert (Nrem : gtake rem <> []).
    { intros E. apply Nrem'. apply length_zero_iff_nil. rewrite <- Lgt, E. reflexivity. }
    clear Nrem'.
    destruct (correlations_cases lat long date pvu longL latL ageL phiL pvf (gtake rem) Nrem)
      as [(vL & -> & FL)|(e & -> & cb & Ib & e' & Xb)].
    2:{ left. exists e. split; [reflexivity|]. left. exists cb, e'. split; [|now left].
        exact (Hincl rem Hrem cb Ib). }
    cbn [bind].
    assert (LvL : length vL = rr) by (rewrite <- (Forall2_size _ _ _ FL); apply Lgt).
    destruct (Hqs vL) as [PqL SqL]. rewrite LvL in PqL, SqL.
    set (q := qs vL) in *.
    assert (Lq : length q = rr) by (rewrite (Permutation_length PqL); apply seq_length).
    assert (Hq : forall i, In i q -> (i < rr)%nat).
    { intros i Hi. apply (Permutation_in _ PqL) in Hi. apply in_seq in Hi. lia. }
    rewrite take_length, Lq.
    set (rq := take 0%nat rem q).
    assert (Prq : Permutation rq rem) by (apply take_perm_full; auto).
    assert (Lrq : length rq = rr) by (unfold rq; now rewrite take_length).
    assert (Hrq : forall i, In i rq -> (i < n)%nat) by (intros i Hi; apply Hrem; eapply Permutation_in; eauto).
    assert (Ezr : take dcast (gtake rem) q = gtake rq).
    { unfold gtake, rq. now rewrite take_take by (intros; apply Hq; auto). }
    rewrite Ezr.
    set (idz := seq L (rr - L)).
    assert (Esr : take dcast (gtake rq) idz = gtake (skipn L rq)).
    { unfold idz. rewrite <- Lrq at 1. rewrite <- (Lgt rq), take_skipn_seq. unfold gtake, take. now rewrite skipn_map. }
    rewrite Esr.
    assert (Hsk : forall i, In i (skipn L rq) -> (i < n)%nat).
    { intros i Hi. apply Hrq. rewrite <- (firstn_skipn L rq). apply in_or_app. now right. }
    assert (Lsk : length (skipn L rq) = (rr - L)%nat) by (rewrite skipn_length; lia).
    destruct (Z_le_gt_dec (Z.of_nat n) (2 * ceil3 m)) as [Hfew|Hmany].
    { left. assert (Z0 : skipn L rq = []) by (apply length_zero_iff_nil; lia). rewrite Z0.
      destruct (correlations_none lat long date pvu longS latS ageS phiS pvf) as (e & E).
      exists e. split; [|right; right; exact Hfew]. change (gtake []) with (@nil (cast T)). now rewrite E. }
    assert (Lr0 : (0 < rr - L)%nat) by (unfold L; lia).
    destruct (correlations_cases lat long date pvu longS latS ageS phiS pvf (gtake (skipn L rq)))
      as [(vS & -> & FS)|(e & -> & cb & Ib & e' & Xb)].
    { intros E. apply (f_equal (@length _)) in E. rewrite Lgt, Lsk in E. simpl in E. lia. }
    2:{ left. exists e. split; [reflexivity|]. left. exists cb, e'. split; [|now right].
        exact (Hincl _ Hsk cb Ib). }
    cbn [bind].
    assert (LvS : length vS = (rr - L)%nat) by (rewrite <- (Forall2_size _ _ _ FS), Lgt; exact Lsk).
    destruct (Hqs vS) as [PqS SqS]. rewrite LvS in PqS, SqS.
    set (q2 := qs vS) in *.
    assert (Lq2 : length q2 = (rr - L)%nat) by (rewrite (Permutation_length PqS); apply seq_length).
    assert (Hq2 : forall i, In i q2 -> (i < rr - L)%nat).
    { intros i Hi. apply (Permutation_in _ PqS) in Hi. apply in_seq in Hi. lia. }
    assert (Er1 : mapM (fun x : T => match py_index ie (ntoZ x) with Some k => Ok k | None => Raise IndexError end)
               irand = Ok (take 0%nat ie zs)).
    { clear -Ez Hz n. induction Ez as [|x k l ks P F IH]; [reflexivity|]. cbn [mapM].
      rewrite (proj1 P), (py_index_in ie k 0%nat) by (apply Hz; now left). cbn [bind].
      rewrite IH by (intros; apply Hz; now right). reflexivity. }
    rewrite Er1. cbn [bind].
    destruct (Z_le_gt_dec m 0) as [Hm0|Hm].
    { left. assert (c = 0)%nat by (unfold c; lia). assert (zs = []) by (apply length_zero_iff_nil; lia). subst zs.
      exists ValueError. split; [reflexivity|]. right. now left. }
    right. split; [lia|]. split; [lia|].
    assert (Lz1 : (1 <= length zs)%nat).
    { destruct zs; [|simpl; lia]. exfalso. apply Nz; [unfold c; lia|reflexivity]. }
    assert (Ecr : np_concat1 (take 0%nat ie zs) = Ok (take 0%nat ie zs)).
    { destruct zs; [simpl in Lz1; lia|reflexivity]. }
    rewrite Ecr. cbn [bind].
    (* large share *)
    rewrite (py_prefix_nonneg (Z.of_nat L)) by lia. rewrite Nat2Z.id.
    rewrite take_firstn. fold rq.
    set (A := firstn L rq). set (C := skipn L rq) in *.
    assert (LA : length A = L) by (unfold A; rewrite firstn_length; lia).
    assert (EA : np_concat1 (take 0%nat ie A) = Ok (take 0%nat ie A)).
    { assert (length (take 0%nat ie A) = L) by (now rewrite take_length).
      destruct (take 0%nat ie A); [simpl in *; lia|reflexivity]. }
    rewrite EA. cbn [bind].
    (* small share *)
    replace (m - Z.of_nat (length zs) - Z.of_nat L)%Z with (m - 2 * ceil3 m)%Z by lia.
    rewrite py_prefix_eq, Lq2. set (k := prefix_len (m - 2 * ceil3 m) (rr - L)).
    set (B := take 0%nat C (firstn k q2)).
    assert (EB : take 0%nat rem (take 0%nat q (take 0%nat idz (firstn k q2))) = B).
    { assert (Hk : forall i, In i (firstn k q2) -> (i < rr - L)%nat).
      { intros i Hi. apply Hq2. rewrite <- (firstn_skipn k q2). apply in_or_app. now left. }
      rewrite take_take.
      2:{ intros j Hj. unfold take in Hj. apply in_map_iff in Hj as (i & <- & Hi).
          specialize (Hk i Hi). unfold idz. rewrite seq_nth by lia. lia. }
      fold rq. rewrite take_take.
      2:{ intros j Hj. unfold idz. rewrite seq_length. auto. }
      unfold idz. rewrite <- Lrq. rewrite take_skipn_seq. reflexivity. }
    rewrite EB.
    set (rest := take 0%nat C (skipn k q2)).
    assert (PC : Permutation (B ++ rest) C).
    { unfold B, rest. rewrite <- take_app, firstn_skipn. apply take_perm_full. now rewrite Lsk. }
    assert (LB : length B = Nat.min k (rr - L)) by (unfold B; rewrite take_length, firstn_length, Lq2; auto).
    exists (take 0%nat ie zs), (take 0%nat ie A), (take 0%nat ie B), (take 0%nat ie rest).
    split; [|split; [|split; [|split; [|split; [|split]]]]].
    - rewrite take_length. destruct B as [|b B']; [reflexivity|]. cbn [length Nat.eqb take map np_concat1 bind].
      reflexivity.
    - rewrite <- !take_app. apply take_perm_full. fold n.
      rewrite PC. unfold A, C. rewrite firstn_skipn. now rewrite Prq.
    - rewrite take_length. lia.
    - rewrite !take_length, LA. unfold L. lia.
    - rewrite take_length, LB. unfold k, L. f_equal; [f_equal|]; lia.
    - intros i j Hi Hj. rewrite <- take_app in Hj.
      unfold take in Hi, Hj. apply in_map_iff in Hi as (a & <- & Ha). apply in_map_iff in Hj as (b & <- & Hb).
      assert (Hb' : In b C) by (eapply Permutation_in; eauto).
      apply In_nth with (d := 0%nat) in Ha as (x & Hx & <-). apply In_nth with (d := 0%nat) in Hb' as (y & Hy & <-).
      rewrite LA in Hx. rewrite Lsk in Hy.
      assert (E1 : nth x A 0%nat = nth x rq 0%nat).
      { unfold A. rewrite <- (firstn_skipn L rq) at 2. rewrite app_nth1; auto. fold A. lia. }
      assert (E2 : nth y C 0%nat = nth (L + y) rq 0%nat).
      { unfold C. rewrite <- (firstn_skipn L rq) at 2. rewrite app_nth2; fold A; rewrite LA; [|lia].
        f_equal. lia. }
      rewrite E1, E2.
      specialize (SqL x (L + y)%nat ltac:(lia)).
      assert (G : forall z, (z < rr)%nat -> sepL pvf (at_ (nth (nth z rq 0%nat) ie 0%nat)) = Ok (nth (nth z q 0%nat) vL nnan)).
      { intros z Hzr. assert (Hqz : (nth z q 0%nat < rr)%nat) by (apply Hq, nth_In; lia).
        rewrite <- (Forall2_at _ _ _ dcast nnan FL (nth z q 0%nat)) by (rewrite Lgt; exact Hqz).
        rewrite Hat by (auto; exact Hqz). unfold rq, take.
        now rewrite (nth_map (fun i => nth i rem 0%nat) q z 0%nat 0%nat) by lia. }
      eexists. eexists. split; [apply G; lia|]. split; [apply G; lia|]. exact SqL.
    - intros i j Hi Hj.
      unfold take in Hi, Hj. apply in_map_iff in Hi as (a & <- & Ha). apply in_map_iff in Hj as (b & <- & Hb).
      unfold B, rest, take in Ha, Hb. apply in_map_iff in Ha as (x & <- & Hx). apply in_map_iff in Hb as (y & <- & Hy).
      apply In_nth with (d := 0%nat) in Hx as (x' & Hx' & <-). apply In_nth with (d := 0%nat) in Hy as (y' & Hy' & <-).
      assert (E1 : nth x' (firstn k q2) 0%nat = nth x' q2 0%nat).
      { rewrite <- (firstn_skipn k q2) at 2. now rewrite app_nth1. }
      rewrite firstn_length in Hx'. rewrite skipn_length in Hy'.
      assert (E2 : nth y' (skipn k q2) 0%nat = nth (k + y') q2 0%nat).
      { rewrite <- (firstn_skipn k q2) at 2. rewrite app_nth2; rewrite firstn_length; [|lia]. f_equal. lia. }
      rewrite E1, E2.
      specialize (SqS x' (k + y')%nat ltac:(lia)).
      assert (G : forall z, (z < rr - L)%nat -> sepS pvf (at_ (nth (nth (nth z q2 0%nat) C 0%nat) ie 0%nat)) = Ok (nth (nth z q2 0%nat) vS nnan)).
      { intros z Hzr. assert (Hqz : (nth z q2 0%nat < rr - L)%nat) by (apply Hq2, nth_In; lia).
        rewrite <- (Forall2_at _ _ _ dcast nnan FS (nth z q2 0%nat)) by (rewrite Lgt, Lsk; exact Hqz).
        now rewrite Hat by (auto; rewrite Lsk; exact Hqz). }
      eexists. eexists. split; [apply G; lia|]. split; [apply G; lia|]. exact SqS.
  Qed.
End Any.
