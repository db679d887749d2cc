From Coq Require Import List Bool Lia PeanoNat.
From Verif Require Import Num Fetchers Spec_Cache.
Import ListNotations.

Section Cache.
  Context {K V : Type}.
  Variable eqb : K -> K -> bool.
  Hypothesis eqb_eq : forall a b, eqb a b = true <-> a = b.
  Notation read := (cached_read (V := V) eqb).

  Lemma eqb_refl a : eqb a a = true.
  Proof. now apply eqb_eq. Qed.

  Lemma cached_entries d k c e : In e (snd (read d k c)) -> In e c \/ (fst e = k /\ fst (read d k c) = Ok (snd e) /\ (In e c \/ d k = Ok (snd e))).
  Proof.
    unfold cached_read. destruct (find _ c) as [[k' v]|] eqn:F.
    - cbn [fst snd]. apply find_some in F as [Hin E]. cbn in E. apply eqb_eq in E. subst k'.
      intros [<-|HI]; [left; exact Hin|]. apply filter_In in HI. tauto.
    - destruct (d k) as [v|x] eqn:ED; cbn [fst snd]; [|auto].
      intros HI. assert (HI' : In e ((k, v) :: c)).
      { revert HI. generalize maxsize. intros m Hm. rewrite <- (firstn_skipn m ((k,v)::c)). apply in_or_app. now left. }
      destruct HI' as [<-|HI']; cbn; auto.
  Qed.

  (* on an unchanging disk the cache changes nothing *)
  Theorem transparent (d : K -> res V) ks :
    fst (calls eqb (map (fun k => (d, k)) ks) []) = map d ks.
  Proof.
    assert (G : forall ks c, (forall e, In e c -> d (fst e) = Ok (snd e)) ->
                  fst (calls eqb (map (fun k => (d, k)) ks) c) = map d ks).
    { clear ks. induction ks as [|k ks IH]; intros c HC; [reflexivity|].
      cbn [map calls].
      destruct (read d k c) as [r c'] eqn:ER. destruct (calls _ _ c') as [rs c''] eqn:EC. cbn [fst].
      assert (HC' : forall e, In e c' -> d (fst e) = Ok (snd e)).
      { intros e He. pose proof (cached_entries d k c e) as X. rewrite ER in X. cbn [fst snd] in X.
        destruct (X He) as [Y|(E & _ & [Y|Y])]; [now apply HC|now apply HC|now rewrite E]. }
      specialize (IH c' HC'). rewrite EC in IH. cbn [fst] in IH. rewrite IH. f_equal.
      unfold cached_read in ER. destruct (find _ c) as [[k' v]|] eqn:F.
      - apply find_some in F as [Hin E]. cbn in E. apply eqb_eq in E. subst k'. inversion ER. symmetry. apply (HC _ Hin).
      - destruct (d k); now inversion ER. }
    apply G. intros e [].
  Qed.

  (* keys are distinct and at most 128 values are kept *)
  Definition wf (c : @cache K V) := NoDup (map fst c) /\ length c <= maxsize.
  Lemma NoDup_firstn {A} n (l : list A) : NoDup l -> NoDup (firstn n l).
  Proof.
    revert n. induction l as [|a l IH]; intros [|n] HN; cbn; try constructor.
    - inversion HN; subst. intros HI. apply H1. rewrite <- (firstn_skipn n l). apply in_or_app. now left.
    - inversion HN; subst. now apply IH.
  Qed.
  Lemma NoDup_filter_keys p (c : @cache K V) : NoDup (map fst c) -> NoDup (map fst (filter p c)).
  Proof.
    induction c as [|[a v] c IH]; intros HN; cbn; [constructor|]. inversion HN; subst.
    destruct (p (a, v)); [|now apply IH]. cbn. constructor; [|now apply IH].
    intros HI. apply H1. apply in_map_iff in HI as (e & <- & HI). apply filter_In in HI as [HI _]. now apply in_map.
  Qed.
  Lemma filter_less {A} p (l : list A) x : In x l -> p x = false -> S (length (filter p l)) <= length l.
  Proof.
    induction l as [|a l IH]; intros HI HP; [destruct HI|]. cbn.
    destruct HI as [->|HI].
    - rewrite HP. apply le_n_S. clear. induction l as [|a l IH]; cbn; [lia|]. destruct (p a); cbn; lia.
    - specialize (IH HI HP). destruct (p a); cbn; lia.
  Qed.
  Lemma wf_step d k c : wf c -> wf (snd (read d k c)).
  Proof.
    intros [HN HL]. unfold cached_read. destruct (find _ c) as [[k' v]|] eqn:F.
    - apply find_some in F as [Hin E]. cbn in E. apply eqb_eq in E. subst k'. cbn [snd]. split.
      + cbn. constructor; [|now apply NoDup_filter_keys].
        intros HI. apply in_map_iff in HI as (e & <- & HI). apply filter_In in HI as [_ HI]. now rewrite eqb_refl in HI.
      + cbn [length]. pose proof (filter_less (fun e => negb (eqb k (fst e))) c (k, v) Hin) as X. cbn in X.
        rewrite eqb_refl in X. specialize (X eq_refl). lia.
    - destruct (d k) as [v|x]; cbn [snd]; [|now split]. split.
      + rewrite <- firstn_map. apply NoDup_firstn. cbn. constructor; [|exact HN].
        intros HI. apply in_map_iff in HI as (e & E & HI). apply (find_none _ _ F) in HI. subst k. now rewrite eqb_refl in HI.
      + rewrite firstn_length. lia.
  Qed.
  Lemma wf_calls h : forall c, wf c -> wf (snd (calls eqb h c)).
  Proof.
    induction h as [|[d k] h IH]; intros c HC; [exact HC|]. cbn [calls].
    pose proof (wf_step d k c HC) as W. destruct (read d k c) as [r c']. cbn [snd] in W.
    specialize (IH c' W). destruct (calls eqb h c') as [rs c'']. exact IH.
  Qed.

  Lemma find_unique (c : @cache K V) k v : NoDup (map fst c) -> In (k, v) c -> find (fun e => eqb k (fst e)) c = Some (k, v).
  Proof.
    induction c as [|[a w] c IH]; intros HN HI; [destruct HI|]. cbn [find fst]. inversion HN; subst.
    destruct (eqb k a) eqn:E.
    - apply eqb_eq in E. subst a. destruct HI as [HI|HI]; [now rewrite HI|]. elim H1. now apply (in_map fst) in HI.
    - destruct HI as [HI|HI]; [inversion HI; subst; now rewrite eqb_refl in E|]. now apply IH.
  Qed.
  Lemma in_filter_firstn {A} p (x : A) : forall l n, In x (firstn n l) -> p x = true -> In x (firstn n (filter p l)).
  Proof.
    induction l as [|a l IH]; intros n HI HP; destruct n; cbn in *; try contradiction.
    destruct HI as [->|HI].
    - rewrite HP. now left.
    - destruct (p a); [right; now apply IH|]. specialize (IH n HI HP).
      assert (G : forall (m : list A) j, In x (firstn j m) -> In x (firstn (S j) m)).
      { clear. induction m as [|b m IH]; intros [|j] HI; cbn in *; try contradiction. destruct HI; [auto|]. right. now apply IH. }
      now apply G.
  Qed.
  Lemma firstn_mono {A} (x : A) : forall l i j, i <= j -> In x (firstn i l) -> In x (firstn j l).
  Proof.
    induction l as [|a l IH]; intros [|i] [|j] HL HI; cbn in *; try contradiction; try lia.
    destruct HI; [auto|]. right. apply IH with i; [lia|auto].
  Qed.
  (* a call moves an entry back by one place at most *)
  Lemma step_back d k' c e p : NoDup (map fst c) -> In e (firstn p c) -> p < maxsize ->
    In e (firstn (S p) (snd (read d k' c))).
  Proof.
    intros HN HI HP. destruct e as [k v]. unfold cached_read.
    assert (HIc : In (k, v) c) by (rewrite <- (firstn_skipn p c); apply in_or_app; now left).
    destruct (find _ c) as [[a w]|] eqn:F.
    - cbn [snd firstn]. pose proof F as F'. apply find_some in F' as [_ E]. cbn in E. apply eqb_eq in E. subst a.
      destruct (eqb k' k) eqn:EK.
      + apply eqb_eq in EK. subst k'. left. rewrite (find_unique c k v HN HIc) in F. now inversion F.
      + right. apply in_filter_firstn; [exact HI|]. cbn. now rewrite EK.
    - destruct (d k'); cbn [snd].
      + rewrite firstn_firstn, Nat.min_l by lia. cbn [firstn]. now right.
      + now apply firstn_mono with p; [lia|].
  Qed.

  (* a value served is served again for 127 further calls, whatever has become of the file *)
  Theorem stale h0 (d1 : K -> res V) k v h1 d2 :
    let c0 := snd (calls eqb h0 []) in
    fst (read d1 k c0) = Ok v -> length h1 < maxsize ->
    let c1 := snd (calls eqb h1 (snd (read d1 k c0))) in
    fst (read d2 k c1) = Ok v.
  Proof.
    cbv zeta. intros E L.
    assert (W0 : wf (snd (calls eqb h0 []))) by (apply wf_calls; split; [constructor|cbn; lia]).
    set (c0 := snd (calls eqb h0 [])) in *. clearbody c0.
    assert (I1 : In (k, v) (firstn 1 (snd (read d1 k c0)))).
    { unfold cached_read in *. destruct (find _ c0) as [[a w]|] eqn:F; cbn [fst snd firstn] in *.
      - inversion E. now left.
      - destruct (d1 k) as [u|]; cbn [fst snd] in *; [|discriminate]. inversion E. now left. }
    pose proof (wf_step d1 k c0 W0) as W1.
    set (c := snd (read d1 k c0)) in *. clearbody c. clear E W0 c0.
    assert (G : forall h c p, wf c -> In (k, v) (firstn p c) -> p + length h <= maxsize ->
                 In (k, v) (firstn (p + length h) (snd (calls eqb h c)))).
    { clear - eqb_eq. induction h as [|[d k'] h IH]; intros c p HW HI HL; cbn [length calls] in *.
      - now rewrite Nat.add_0_r.
      - pose proof (step_back d k' c (k, v) p (proj1 HW) HI ltac:(lia)) as HS.
        pose proof (wf_step d k' c HW) as HW'. destruct (read d k' c) as [r c']. cbn [snd] in *.
        specialize (IH c' (S p) HW' HS ltac:(lia)). destruct (calls eqb h c') as [rs c'']. cbn [snd] in *.
        now rewrite Nat.add_succ_r. }
    specialize (G h1 c 1 W1 I1 ltac:(cbn; lia)).
    pose proof (wf_calls h1 c W1) as W2. set (c2 := snd (calls eqb h1 c)) in *. clearbody c2.
    unfold cached_read. rewrite (find_unique c2 k v (proj1 W2)); [reflexivity|].
    rewrite <- (firstn_skipn (1 + length h1) c2). apply in_or_app. now left.
  Qed.
End Cache.
