(* find_besthist in double precision: what a returned list is, and when one is returned *)
From Coq Require Import ZArith List Bool Reals Lra Lia Permutation Sorted.
From Flocq Require Import Core.Core IEEE754.BinarySingleNaN.
From Verif Require Import Num Np NumFacts NpFacts Float Spec_Float Utilities Finders Spec_Finders
  Proofs_Besthist Proofs_Float1 Proofs_Float2 Proofs_Float3 Proofs_Float6 Proofs_Float7 Proofs_Float8
  Proofs_Float9 Proofs_Float10 Proofs_Float11.
Import ListNotations.
Local Open Scope R_scope.

(* ---- squares of scales ---- *)
(* not NaN and not near zero *)
Definition far (x : f64) : Prop := (exists s, x = B754_infinity s) \/ finite x /\ bpow radix2 (-500) <= Rabs (val x).

Lemma mul_cases (x y : f64) : finite x -> finite y ->
  (exists s, nmul x y = B754_infinity s) \/ finite (nmul x y) /\ val (nmul x y) = rnd (val x * val y).
Proof.
  intros Fx Fy. pose proof (Bmult_correct 53 1024 _ _ mode_NE x y) as C.
  fold (val x) in C. fold (val y) in C. fold (rnd (val x * val y)) in C.
  destruct (Rlt_bool _ _) in C.
  - right. destruct C as (A & B & _). split; [|exact A]. unfold finite. change (nmul x y) with (Bmult mode_NE x y).
    rewrite B. unfold finite in *. now rewrite Fx, Fy.
  - left. rewrite overflow_NE in C. exists (xorb (Bsign x) (Bsign y)). now apply SF_inf.
Qed.

Lemma far_mul (x y : f64) r e : finite x -> finite y -> (-1074 <= e <= 1023)%Z ->
  r = Rabs (val x * val y) -> bpow radix2 e <= r ->
  (exists s, nmul x y = B754_infinity s) \/ finite (nmul x y) /\ bpow radix2 e <= Rabs (val (nmul x y)).
Proof.
  intros Fx Fy He -> L. destruct (mul_cases x y Fx Fy) as [I|(F & V)]; [now left|right].
  split; [exact F|]. rewrite V, rnd_abs, <- (rnd_pow e) by exact He. now apply rnd_le.
Qed.

Lemma far_sq x : far x -> neqb (nsq x) (nofZ 0) = false.
Proof.
  intros [(s & ->)|(F & L)]; [destruct s; reflexivity|]. unfold nsq.
  assert (P : bpow radix2 (-1000) <= Rabs (val x * val x)).
  { rewrite Rabs_mult. change (-1000)%Z with (-500 + -500)%Z. rewrite bpow_plus.
    apply Rmult_le_compat; auto using bpow_ge_0. }
  destruct (far_mul x x _ (-1000) F F ltac:(lia) eq_refl P) as [(s & E)|(Fm & Lm)].
  - rewrite E. destruct s; reflexivity.
  - destruct (k_ok 0 ltac:(lia)) as (F0 & V0). rewrite (eq_finite _ _ Fm F0), V0. apply Reqb_false. intros Z.
    change (IZR 0) with 0 in Z. rewrite Z, Rabs_R0 in Lm. pose proof (bpow_gt_0 radix2 (-1000)). lra.
Qed.

Lemma safe_far s : safe_scale s -> far s.
Proof. intros (F & L & _). now right. Qed.

Lemma safe_far3 s : safe_scale s -> far (nmul s (nofZ 3)).
Proof.
  intros (F & L & _). destruct (k_ok 3 ltac:(lia)) as (F3 & V3). unfold far.
  eapply far_mul; [exact F|exact F3|lia|reflexivity|]. rewrite V3, Rabs_mult, (Rabs_pos_eq 3) by lra.
  pose proof (Rabs_pos (val s)). lra.
Qed.

Lemma pydiv_far a s : neqb s (nofZ 0) = false -> exists v : f64, pydiv a s = Ok v.
Proof. intros E. unfold pydiv. rewrite E. eauto. Qed.

(* ---- the two conditions on the order ---- *)
Section Run.
  Context {E : NumT f64}.
  Context {rng : Type} (seed : Z -> rng) (rand : rng -> nat -> list f64 * rng) (qs : list f64 -> list nat).
  Hypothesis Hrand : rand_ok64 rand.
  Hypothesis Hqs : argsort_ok64 qs.
  Variable p : search.

  Lemma draws64 g n k : (0 < n)%nat -> (Z.of_nat n < 2 ^ 53)%Z ->
    exists zs, Forall2 (position n) (index_rand n (fst (rand g k))) zs
      /\ StronglySorted lt zs /\ (forall i, In i zs -> (i < n)%nat) /\ (length zs <= k)%nat /\ ((0 < k)%nat -> zs <> []).
  Proof.
    intros Hn H53. destruct (Hrand g k) as (L & U).
    destruct (index_rand_f64 n (fst (rand g k)) Hn H53 U) as (zs & A & B & C & D & N).
    exists zs. repeat split; auto; [lia|]. intros Hk. apply N. intros Z. rewrite Z in L. cbn in L. lia.
  Qed.

  (* the casts inside *)
  Lemma pv_of_cast c : pv_of (s_use p) c = s_pv_cast p c.
  Proof. reflexivity. Qed.

  Lemma mapM_index {A} (f : A -> res f64) (h : f64 -> bool) (d : A) l vs i :
    Forall2 (fun a v => f a = Ok v) l vs ->
    (In i (argwhere h vs) <-> (i < length l)%nat /\ exists e, f (nth i l d) = Ok e /\ h e = true).
  Proof.
    intros F. rewrite (argwhere_spec nnan), <- (Forall2_size _ _ _ F). split; intros (Hi & Q); split; auto.
    - exists (nth i vs nnan). split; [now apply (Forall2_at _ _ _ d nnan F)|exact Q].
    - destruct Q as (e & Q & X). pose proof (Forall2_at _ _ _ d nnan F i Hi) as Y. cbv beta in Y. rewrite Q in Y.
      apply Ok_inj in Y. now rewrite <- Y.
  Qed.

  (* ellipse_index returns the casts inside, or some call raised *)
  Lemma ellipse_cases grid :
    let out := ellipse_index (s_lat p) (s_long p) (s_z p) (s_latL p) (s_longL p) (s_phiL p) (s_use p) grid in
    (exists e, out = Raise e /\ (grid = [] \/ exists c e', In c grid /\ s_ellipse p c = Raise e'))
    \/ exists pvf ie, out = Ok (pvf, ie) /\ s_pv_float p = Ok pvf /\ inside64 p grid ie /\ grid <> [].
  Proof.
    cbv zeta. unfold ellipse_index, pv_float, use_pv. fold (s_pv_float p).
    destruct (s_pv_float p) as [pvf|e] eqn:Ef; cbn [bind].
    2:{ left. exists e. split; [reflexivity|]. destruct grid as [|c grid]; [now left|right].
        exists c, e. split; [now left|]. unfold s_ellipse. now rewrite Ef. }
    destruct (list_eq_nil_dec grid) as [->|N].
    { left. unfold pv_casts. destruct (use_pv (s_use p)); eexists; (split; [reflexivity|now left]). }
    destruct (pv_casts_cases (s_use p) grid N) as [(ps & -> & F)|(e & -> & c & I & e' & X)]; cbn [bind].
    2:{ left. exists e. split; [reflexivity|]. right. exists c, e'. split; [exact I|].
        unfold s_ellipse. rewrite Ef. cbn [bind]. rewrite <- pv_of_cast, X. reflexivity. }
    set (f := fun cp : cast f64 * f64 => _). assert (V : vectorize f (combine grid ps) = mapM f (combine grid ps)).
    { destruct F; [congruence|reflexivity]. }
    rewrite V. clear V. destruct (mapM_cases f (combine grid ps)) as [(vs & -> & G)|(e & -> & cp & I & e' & X)]; cbn [bind].
    - right. exists pvf. eexists. split; [reflexivity|]. split; [reflexivity|]. split; [|exact N].
      assert (GF : Forall2 (fun c v => s_ellipse p c = Ok v) grid vs).
      { clear N. revert vs G. induction F as [|c q l ps Ec F IH]; intros vs G.
        - inversion G. constructor.
        - cbn [combine] in G. inversion G as [|? ? ? ? Ev G']; subst. constructor; [|now apply IH].
          unfold s_ellipse. rewrite Ef. cbn [bind]. rewrite <- pv_of_cast, Ec. exact Ev. }
      split; [apply argwhere_sorted|]. intros i. exact (mapM_index _ _ no_cast _ _ i GF).
    - left. exists e. split; [reflexivity|]. right. exists (fst cp), e'. split.
      + destruct cp as [c q]. exact (in_combine_l _ _ _ _ I).
      + pose proof (Forall2_combine _ _ _ F) as Q. rewrite Forall_forall in Q. specialize (Q cp I).
        unfold s_ellipse. rewrite Ef. cbn [bind]. rewrite <- pv_of_cast, Q. exact X.
  Qed.

  Lemma large_eq pvf c : s_pv_float p = Ok pvf ->
    s_large p c = sep (s_lat p) (s_long p) (s_date p) (s_use p) (s_longL p) (s_latL p) (s_ageL p) (s_phiL p) pvf c.
  Proof. intros Ef. unfold s_large, sep. rewrite Ef. reflexivity. Qed.
  Lemma small_eq pvf c : s_pv_float p = Ok pvf ->
    s_small p c = sep (s_lat p) (s_long p) (s_date p) (s_use p) (s_longS p) (s_latS p) (s_ageS p) (s_phiS p) pvf c.
  Proof. intros Ef. unfold s_small, sep. rewrite Ef. reflexivity. Qed.

  Lemma third_mono m : (0 <= m)%Z -> ceil3 m = third m.
  Proof. intros _. apply ceil3_third. Qed.

  (* everything about a run *)
  Lemma search_cases grid m g0 : countable grid ->
    let out := fst (search_run seed rand qs p grid m g0) in
    (exists e, out = Raise e /\ (grid = []
         \/ (exists c e', In c grid /\ (s_ellipse p c = Raise e' \/ s_large p c = Raise e' \/ s_small p c = Raise e'))
         \/ exists ie, inside64 p grid ie /\ (m < Z.of_nat (length ie))%Z /\ ((m <= 0)%Z \/ (Z.of_nat (length ie) <= 2 * third m)%Z)))
    \/ exists ie, inside64 p grid ie
       /\ ((Z.of_nat (length ie) <= m)%Z /\ out = Ok ie
           \/ (0 < m < Z.of_nat (length ie))%Z /\ (2 * third m < Z.of_nat (length ie))%Z /\ exists r l s d,
              out = (if Nat.eqb (length s) 0 then Raise ValueError else Ok (r ++ l ++ s)%list)
              /\ Permutation (r ++ l ++ s ++ d) ie
              /\ (1 <= length r <= Z.to_nat (third m))%nat
              /\ (length r + length l = 2 * Z.to_nat (third m))%nat
              /\ (m = 1%Z /\ length s = (length ie - 3)%nat \/ (2 <= m)%Z /\ Z.of_nat (length s) = (m - 2 * third m)%Z)
              /\ (forall i j, In i l -> In j (s ++ d) -> ranked (s_large p (nth i grid no_cast)) (s_large p (nth j grid no_cast)))
              /\ (forall i j, In i s -> In j d -> ranked (s_small p (nth i grid no_cast)) (s_small p (nth j grid no_cast)))).
  Proof.
    intros Hc. cbv zeta. unfold search_run, find_besthist.
    destruct (ellipse_cases grid) as [(e & -> & X)|(pvf & ie & -> & Ef & Hie & N)].
    { left. exists e. split; [reflexivity|]. destruct X as [X|(c & e' & I & X)]; [now left|right; left; eauto 6]. }
    assert (Hv : forall i, In i ie -> (i < length grid)%nat) by (intros i Hi; now apply Hie in Hi).
    assert (Hl : (length ie <= length grid)%nat).
    { rewrite <- (seq_length (length grid) 0). apply NoDup_incl_length; [apply sorted_lt_NoDup, Hie|].
      intros i Hi. apply in_seq. specialize (Hv i Hi). lia. }
    destruct (Z.ltb_spec m (Z.of_nat (length ie))) as [Hm|Hm].
    2:{ right. exists ie. split; [exact Hie|]. left. split; [exact Hm|reflexivity]. }
    unfold countable in Hc.
    destruct (select_any seed rand qs not_after Hqs draws64 (s_lat p) (s_long p) (s_date p) (s_latL p) (s_latS p)
       (s_longL p) (s_longS p) (s_phiL p) (s_phiS p) (s_ageL p) (s_ageS p) (s_use p) grid pvf ie m g0 ltac:(lia) Hm Hv)
      as [(e & -> & X)|(M0 & M2 & r & l & s & d & -> & P & Lr & Ll & Ls & RL & RS)].
    - left. exists e. split; [reflexivity|]. rewrite ceil3_third in X.
      destruct X as [(c & e' & I & X)|X].
      + right. left. exists c, e'. split; [exact I|]. right. rewrite (large_eq pvf), (small_eq pvf) by exact Ef. exact X.
      + right. right. exists ie. auto.
    - right. exists ie. split; [exact Hie|]. right. rewrite ceil3_third in *. split; [lia|]. split; [exact M2|].
      exists r, l, s, d. split; [reflexivity|]. split; [exact P|]. split; [exact Lr|]. split; [exact Ll|]. split; [|split].
      + pose proof (third_bounds m) as Tb. unfold prefix_len in Ls. destruct (Z.ltb_spec (m - 2 * third m) 0).
        * left. assert (m = 1)%Z by lia. subst m. change (third 1) with 1%Z in *. split; [reflexivity|]. lia.
        * right. assert (m <> 1)%Z by (intros ->; cbn in *; lia). split; [lia|]. lia.
      + intros i j Hi Hj. destruct (RL i j Hi Hj) as (u & v & A & B & C). exists u, v.
        rewrite !(large_eq pvf) by exact Ef. auto.
      + intros i j Hi Hj. destruct (RS i j Hi Hj) as (u & v & A & B & C). exists u, v.
        rewrite !(small_eq pvf) by exact Ef. auto.
  Qed.

  Lemma inside64_unique grid a b : inside64 p grid a -> inside64 p grid b -> a = b.
  Proof. intros (Sa & Ha) (Sb & Hb). apply sorted_lt_unique; auto. intros i. now rewrite Ha, Hb. Qed.

  Lemma search_ok grid m g0 l : countable grid -> fst (search_run seed rand qs p grid m g0) = Ok l ->
    exists ie, inside64 p grid ie /\ NoDup l /\ incl l ie
      /\ ((Z.of_nat (length ie) <= m)%Z -> l = ie)
      /\ ((m < Z.of_nat (length ie))%Z ->
            Z.of_nat (length l) = m \/ m = 1%Z /\ length l = (length ie - 1)%nat).
  Proof.
    intros Hc Hl. destruct (search_cases grid m g0 Hc) as [(e & X & _)|(ie & Hie & X)]; [congruence|].
    exists ie. assert (N : NoDup ie) by apply sorted_lt_NoDup, Hie.
    destruct X as [(Hm & X)|(Hm & H2 & r & lg & s & d & X & P & Lr & Ll & Ls & _)].
    - rewrite X in Hl. apply Ok_inj in Hl. subst l. split; [exact Hie|]. split; [exact N|]. split; [apply incl_refl|]. split; [reflexivity|lia].
    - rewrite X in Hl. destruct (Nat.eqb_spec (length s) 0) as [|N0]; [discriminate|]. apply Ok_inj in Hl. subst l.
      assert (P' : Permutation ((r ++ lg ++ s) ++ d) ie) by (now rewrite <- !app_assoc).
      split; [exact Hie|]. split; [|split; [|split]].
      + apply (NoDup_app_l _ d). apply (Permutation_NoDup (Permutation_sym P') N).
      + intros i Hi. apply (Permutation_in _ P'). apply in_or_app. now left.
      + lia.
      + intros _. rewrite !app_length. pose proof (third_bounds m). destruct Ls as [(-> & Ls)|(M & Ls)].
        * right. change (third 1) with 1%Z in *. split; [reflexivity|]. lia.
        * left. lia.
  Qed.

  Lemma search_shares grid m g0 l : countable grid -> fst (search_run seed rand qs p grid m g0) = Ok l ->
    forall ie, inside64 p grid ie -> (m < Z.of_nat (length ie))%Z ->
    exists r lg s, l = (r ++ lg ++ s)%list
      /\ (1 <= length r <= Z.to_nat (third m))%nat /\ (length r + length lg = 2 * Z.to_nat (third m))%nat
      /\ (forall i j, In i lg -> In j ie -> ~ In j (r ++ lg) -> ranked (s_large p (nth i grid no_cast)) (s_large p (nth j grid no_cast)))
      /\ (forall i j, In i s -> In j ie -> ~ In j (r ++ lg ++ s) -> ranked (s_small p (nth i grid no_cast)) (s_small p (nth j grid no_cast))).
  Proof.
    intros Hc Hl ie Hie Hm. destruct (search_cases grid m g0 Hc) as [(e & X & _)|(ie' & Hie' & X)]; [congruence|].
    rewrite (inside64_unique grid ie' ie Hie' Hie) in *.
    destruct X as [(Hm' & X)|(_ & H2 & r & lg & s & d & X & P & Lr & Ll & Ls & RL & RS)]; [lia|].
    rewrite X in Hl. destruct (Nat.eqb_spec (length s) 0) as [|N0]; [discriminate|]. apply Ok_inj in Hl. subst l.
    exists r, lg, s. split; [reflexivity|]. split; [exact Lr|]. split; [exact Ll|]. split.
    - intros i j Hi Hj Nj. apply RL; auto. apply (Permutation_in _ (Permutation_sym P)) in Hj.
      rewrite app_assoc in Hj. apply in_app_or in Hj as [Hj|Hj]; [contradiction|exact Hj].
    - intros i j Hi Hj Nj. apply RS; auto. apply (Permutation_in _ (Permutation_sym P)) in Hj.
      replace (r ++ lg ++ s ++ d)%list with ((r ++ lg ++ s) ++ d)%list in Hj by (now rewrite <- !app_assoc).
      apply in_app_or in Hj as [Hj|Hj]; [contradiction|exact Hj].
  Qed.

  (* without potential vorticity nothing raises *)
  Lemma no_raise c : safe_search p -> s_use p <> 1%Z ->
    (exists v, s_ellipse p c = Ok v) /\ (exists v, s_large p c = Ok v) /\ (exists v, s_small p c = Ok v).
  Proof.
    intros (HS & _) U. unfold s_ellipse, s_large, s_small, s_pv_float, s_pv_cast.
    destruct (Z.eqb_spec (s_use p) 1); [congruence|]. cbn [bind].
    inversion HS as [|? ? S1 HS1]; subst. inversion HS1 as [|? ? S2 HS2]; subst. inversion HS2 as [|? ? S3 HS3]; subst.
    inversion HS3 as [|? ? S4 HS4]; subst. inversion HS4 as [|? ? S5 HS5]; subst. inversion HS5 as [|? ? S6 _]; subst.
    unfold find_ellipse, spatial_correlation. change (neqb (nofZ 0 : f64) (nofZ 0)) with true. cbn [negb andb bind].
    split; [|split].
    - destruct (pydiv_far (nsq (nsub (c_long c) (s_long p))) _ (far_sq _ (safe_far3 _ S3))) as (v1 & ->).
      destruct (pydiv_far (nsq (nsub (c_lat c) (s_lat p))) _ (far_sq _ (safe_far3 _ S1))) as (v2 & ->). cbn [bind]. eauto.
    - destruct (pydiv_far (nsq (nsub (c_long c) (s_long p))) _ (far_sq _ (safe_far _ S3))) as (v1 & ->).
      destruct (pydiv_far (nsq (nsub (c_lat c) (s_lat p))) _ (far_sq _ (safe_far _ S1))) as (v2 & ->).
      destruct (pydiv_far (nsq (nsub (c_date c) (s_date p))) _ (far_sq _ (safe_far _ S5))) as (v3 & ->). cbn [bind]. eauto.
    - destruct (pydiv_far (nsq (nsub (c_long c) (s_long p))) _ (far_sq _ (safe_far _ S4))) as (v1 & ->).
      destruct (pydiv_far (nsq (nsub (c_lat c) (s_lat p))) _ (far_sq _ (safe_far _ S2))) as (v2 & ->).
      destruct (pydiv_far (nsq (nsub (c_date c) (s_date p))) _ (far_sq _ (safe_far _ S6))) as (v3 & ->). cbn [bind]. eauto.
  Qed.

  Lemma search_total grid m g0 : countable grid -> grid <> [] -> safe_search p -> Forall safe_cast grid ->
    s_use p <> 1%Z -> m = 3%Z \/ (5 <= m)%Z -> exists l, fst (search_run seed rand qs p grid m g0) = Ok l.
  Proof.
    intros Hc N Hs _ U Hm. pose proof (third_bounds m) as Tb.
    assert (T3 : (2 * third m < m)%Z).
    { destruct Hm as [->|Hm]; [reflexivity|]. unfold third in *.
      pose proof (Z.div_mod (m + 2) 3 ltac:(lia)). pose proof (Z.mod_pos_bound (m + 2) 3 ltac:(lia)). lia. }
    destruct (search_cases grid m g0 Hc) as [(e & _ & X)|(ie & Hie & X)].
    - exfalso. destruct X as [X|[(c & e' & _ & X)|(ie & _ & Hl & X)]]; [congruence| |lia].
      destruct (no_raise c Hs U) as ((v1 & E1) & (v2 & E2) & (v3 & E3)). intuition congruence.
    - destruct X as [(_ & ->)|(Hm' & H2 & r & lg & s & d & -> & P & Lr & Ll & Ls & _)]; [eauto|].
      destruct (Nat.eqb_spec (length s) 0) as [Z|]; [|eauto]. exfalso. lia.
  Qed.
End Run.

(* ---- the stable argsort is one of the admitted sorts ---- *)
Lemma np_sort_sorted64 (l : list f64) : sorted_by slt (np_sort l).
Proof.
  apply sort_by_sorted.
  - intros a b. rewrite <- !real_slt. apply slt_asym.
  - intros a b c. rewrite <- !real_slt. apply slt_negtrans.
Qed.

Lemma sorted_by_nth (l : list f64) : sorted_by slt l -> forall i j, (i <= j < length l)%nat -> not_after (nth i l nnan) (nth j l nnan).
Proof.
  assert (R : forall a b : f64, slt b a = false -> not_after a b).
  { intros a b H. unfold slt in H. apply orb_false_iff in H as [H1 H2]. split; [exact H1|].
    intros N. rewrite N, andb_true_r in H2. now apply negb_false_iff in H2. }
  assert (Q : forall a : f64, slt a a = false).
  { intros a. destruct (slt a a) eqn:X; [|reflexivity]. rewrite <- X. rewrite <- real_slt in *. now apply slt_asym. }
  induction 1 as [|x l S IH F]; intros i j Hij; cbn [length] in Hij; [lia|].
  destruct i as [|i], j as [|j]; cbn [nth]; try lia.
  - apply R, Q.
  - apply R. rewrite Forall_forall in F. apply F. apply nth_In. lia.
  - apply IH. lia.
Qed.

Lemma argsort_ok_f64 : argsort_ok64 (@argsort f64 _).
Proof.
  intros l. split; [apply argsort_perm|]. intros i j Hij.
  assert (G : forall k, (k < length l)%nat -> nth (nth k (argsort l) 0%nat) l nnan = nth k (np_sort l) nnan).
  { intros k Hk. rewrite <- (take_argsort nnan l). unfold take. symmetry.
    apply (nth_map (fun i => nth i l nnan)). now rewrite argsort_length. }
  rewrite !G by lia. apply sorted_by_nth; [apply np_sort_sorted64|]. rewrite np_sort_length. exact Hij.
Qed.

(* a search that meets the hypotheses: seven casts around 54.1 W 58.3 S *)
Definition demo_search : search :=
  mkSearch (nq (-583) 10) (nq 541 10) (nq 20105 10) (nofZ 3000) (nofZ 8) (nofZ 4) (nofZ 4) (nofZ 2)
    (nq 1 10) (nq 2 100) (nofZ 20) (nofZ 5) 0.
Definition demo_grid : list (cast f64) :=
  map (fun k => mkCast (nq (-583 + 7 * k) 10) (nq (541 + 3 * k) 10) (nofZ (2000 + k)) (nofZ 3000)) [0; 1; 2; 3; 4; 5; 6; 400]%Z.
Definition demo_rand : unit -> nat -> list f64 * unit := fun _ k => (repeat (nq 3 10) k, tt).

Lemma demo_rand_ok : rand_ok64 demo_rand.
Proof.
  intros g k. cbn [demo_rand fst]. split; [apply repeat_length|]. apply Forall_forall. intros x Hx.
  apply repeat_spec in Hx. subst x. split; [reflexivity|]. erewrite val_of by (vm_compute; reflexivity). cbn. lra.
Qed.
Lemma demo_run : fst (search_run (E := demo_exp) (fun _ => tt) demo_rand argsort demo_search demo_grid 5 tt) = Ok [1; 2; 3; 0; 5]%nat.
Proof. vm_compute. reflexivity. Qed.

Lemma between x : finite x -> 1 <= Rabs (val x) <= 4096 -> safe_scale x.
Proof.
  intros F (A & B). split; [exact F|]. split.
  - apply Rle_trans with 1; [|exact A]. change 1 with (bpow radix2 0). apply bpow_le. lia.
  - apply Rle_trans with 4096; [exact B|]. change 4096 with (bpow radix2 12). apply bpow_le. lia.
Qed.
Lemma below x : finite x -> Rabs (val x) <= 4096 -> moderate x.
Proof.
  intros F A. split; [exact F|]. apply Rle_trans with 4096; [exact A|]. change 4096 with (bpow radix2 12). apply bpow_le. lia.
Qed.
Lemma demo_safe : safe_search demo_search.
Proof.
  split.
  - repeat (apply Forall_cons; [apply between; [reflexivity|];
      erewrite val_of by (vm_compute; reflexivity); cbn; rewrite Rabs_pos_eq; lra|]). apply Forall_nil.
  - repeat (apply Forall_cons; [apply below; [reflexivity|];
      erewrite val_of by (vm_compute; reflexivity); cbn; apply Rabs_le; lra|]). apply Forall_nil.
Qed.
Lemma demo_casts : Forall safe_cast demo_grid.
Proof.
  unfold demo_grid. cbn [map]. repeat (apply Forall_cons; [unfold safe_cast; cbn [c_lat c_long c_date];
    repeat (apply Forall_cons; [apply below; [reflexivity|];
      erewrite val_of by (vm_compute; reflexivity); cbn; apply Rabs_le; lra|]); apply Forall_nil|]). apply Forall_nil.
Qed.
