(* Proofs about interp_climatology *)
From Coq Require Import ZArith List Bool Reals Lra Lia.
From Verif Require Import Num Np NumFacts NpFacts Wrangling Spec_Finders Spec_Interp Proofs_Besthist Proofs_Thetas2 Proofs_Stats1 Proofs_Thetas Proofs_Map2.
Import ListNotations.
Local Open Scope R_scope.

Definition fin3 (q : sample) : XR * XR * XR := (Fin (p_sal q), Fin (p_theta q), Fin (p_pres q)).
Definition nan3 : XR * XR * XR := (NaN, NaN, NaN).

Lemma steps_map {X} (l : list X) d :
  steps l = map (fun k => (nth k l d, nth (S k) l d)) (seq 0 (length l - 1)).
Proof.
  unfold steps. destruct l as [|x l]; auto. cbn [tl length]. replace (S (length l) - 1)%nat with (length l) by lia.
  revert x. induction l as [|y l IH]; intros x; auto.
  change (combine (x :: y :: l) (y :: l)) with ((x, y) :: combine (y :: l) l). cbn [length seq map]. f_equal. rewrite IH, <- seq_shift, map_map. reflexivity.
Qed.
Lemma combine_maps {X Y Z} (f : X -> Y) (g : X -> Z) l : combine (map f l) (map g l) = map (fun x => (f x, g x)) l.
Proof. induction l; cbn; congruence. Qed.

Section Station.
  Variables (l : list sample) (L : nat) (v p : R).
  Hypothesis HL : (length l <= L)%nat.
  Definition col := pad L (map fin3 l).
  Definition q_ k : XR * XR * XR := nth k col nan3.

  Lemma col_length : length col = L.
  Proof. unfold col, pad. rewrite app_length, repeat_length, map_length. lia. Qed.
  Lemma q_in k : (k < length l)%nat -> q_ k = fin3 (nth k l dsample).
  Proof.
    intros Hk. unfold q_, col, pad. rewrite app_nth1 by now rewrite map_length. now apply nth_map.
  Qed.
  Lemma q_out k : (length l <= k)%nat -> q_ k = nan3.
  Proof.
    intros Hk. unfold q_, col, pad. rewrite app_nth2 by now rewrite map_length. rewrite map_length.
    change (@nnan XR _, @nnan XR _, @nnan XR _) with nan3. apply nth_repeat.
  Qed.

  Definition encb k : bool := Nat.ltb (S k) (length l) && Rleb ((at_ p_theta l (S k) - v) * (at_ p_theta l k - v)) 0.
  Lemma encb_spec k : encb k = true <-> encloses l v k.
  Proof.
    unfold encb, encloses. rewrite andb_true_iff, Nat.ltb_lt. apply and_iff_compat_l.
    unfold Rleb. destruct (Rle_dec _ 0) as [H|H]; split; intros Q; auto; try discriminate.
    - set (a := at_ p_theta l (S k)) in *. set (b := at_ p_theta l k) in *.
      destruct (Rtotal_order a v) as [|[|]], (Rtotal_order b v) as [|[|]]; try (left; lra); try (right; lra); exfalso; nra.
    - exfalso. apply H. set (a := at_ p_theta l (S k)) in *. set (b := at_ p_theta l k) in *. nra.
  Qed.

  Definition val (f : sample -> R) k : option R :=
    if encb k then if Req_EM_T (at_ p_theta l k) (at_ p_theta l (S k)) then None else Some (between f l v k) else None.

  Definition chg k := sign_change (nsub (snd (fst (q_ k))) (Fin v), nsub (snd (fst (q_ (S k)))) (Fin v)).
  Lemma chg_eq k : chg k = encb k.
  Proof.
    unfold chg, sign_change, encb. cbn [fst snd].
    destruct (Nat.ltb_spec (S k) (length l)) as [H|H].
    - rewrite !q_in by lia. cbn. reflexivity.
    - rewrite (q_out (S k)) by lia. reflexivity.
  Qed.
  Lemma cell (r : XR * XR * XR -> XR) f k : (forall a, r (fin3 a) = Fin (f a)) ->
    (if chg k then interpolate (interpolation_weight (Fin v) (snd (fst (q_ k)), snd (fst (q_ (S k))))) (r (q_ k), r (q_ (S k))) else nnan)
    = oX (val f k).
  Proof.
    intros Hr. rewrite chg_eq. unfold val. destruct (encb k) eqn:E; auto.
    assert (B := E). apply encb_spec in B. destruct B as [B1 B2]. rewrite !q_in by lia. rewrite !Hr.
    unfold interpolation_weight, interpolate, fin3. cbn [fst snd].
    fold (at_ p_theta l k). fold (at_ p_theta l (S k)). fold (at_ f l k). fold (at_ f l (S k)).
    change (nsub (Fin ?a) (Fin ?b)) with (Fin (a - b)).
    destruct (Req_EM_T (at_ p_theta l k) (at_ p_theta l (S k))) as [Q|Q].
    - assert (at_ p_theta l k = v) by lra.
      replace (v - at_ p_theta l k) with 0 by lra. replace (at_ p_theta l (S k) - at_ p_theta l k) with 0 by lra.
      cbn. destruct (Req_EM_T 0 0); [|lra]. destruct (Rlt_dec 0 0); [lra|]. reflexivity.
    - rewrite ndiv_fin by lra. reflexivity.
  Qed.

  Lemma placeholder_eq (r : XR * XR * XR -> XR) f : (forall a, r (fin3 a) = Fin (f a)) -> r nan3 = NaN ->
    map (fun q : bool * XR * (XR * XR) => if fst (fst q) then interpolate (snd (fst q)) (snd q) else nnan)
      (combine (combine (map sign_change (steps (map (fun t => nsub t (Fin v)) (map (fun q => snd (fst q)) col))))
                        (map (interpolation_weight (Fin v)) (steps (map (fun q => snd (fst q)) col)))) (steps (map r col)))
    = map oX (map (val f) (seq 0 (L - 1))).
  Proof.
    intros Hr Hn.
    rewrite (steps_map (map (fun t => nsub t (Fin v)) _) NaN), (steps_map (map (fun q => snd (fst q)) col) NaN), (steps_map (map r col) NaN).
    rewrite !map_length, col_length, !map_map, !combine_maps, !map_map. apply map_ext_in. intros k Hk. apply in_seq in Hk.
    cbn [fst snd]. rewrite <- (cell r f k Hr).
    rewrite !(nth_map _ col _ _ nan3) by (rewrite col_length; lia). fold (q_ k). fold (q_ (S k)). reflexivity.
  Qed.
  Lemma changes_eq :
    map sign_change (steps (map (fun t => nsub t (Fin v)) (map (fun q => snd (fst q)) col))) = map encb (seq 0 (L - 1)).
  Proof.
    rewrite (steps_map (map (fun t => nsub t (Fin v)) _) NaN). rewrite !map_length, col_length, !map_map.
    apply map_ext_in. intros k Hk. apply in_seq in Hk. rewrite <- chg_eq. unfold chg, q_.
    rewrite !(nth_map _ col _ _ nan3) by (rewrite col_length; lia). reflexivity.
  Qed.

  Lemma station_ok :
    (~ only_isothermal l v -> exists o, interp_station (Fin v) (Fin p) col = Ok o /\ station_gives l v p o) /\
    (only_isothermal l v -> interp_station (Fin v) (Fin p) col = Raise ValueError).
  Proof.
    unfold interp_station. cbv zeta.
    rewrite (placeholder_eq snd p_pres), (placeholder_eq (fun q => fst (fst q)) p_sal) by auto. rewrite changes_eq.
    assert (ABS : map (fun x => nabs (nsub x (Fin p))) (map oX (map (val p_pres) (seq 0 (L - 1))))
      = map oX (map (fun k => option_map (fun x => Rabs (x - p)) (val p_pres k)) (seq 0 (L - 1)))).
    { rewrite !map_map. apply map_ext. intros k. destruct (val p_pres k); reflexivity. }
    rewrite ABS. set (ds := map (fun k => option_map _ (val p_pres k)) (seq 0 (L - 1))).
    assert (Lds : length ds = (L - 1)%nat) by (unfold ds; now rewrite map_length, seq_length).
    assert (Nds : forall k, (k < L - 1)%nat -> nth k ds None = option_map (fun x => Rabs (x - p)) (val p_pres k)).
    { intros k Hk. unfold ds. rewrite (nth_map _ _ _ _ 0%nat) by now rewrite seq_length. now rewrite seq_nth. }
    assert (Henc : forall k, encloses l v k -> (k < L - 1)%nat) by (intros k [Hk _]; lia).
    assert (Hval : forall f k, encloses l v k -> sloped l k -> val f k = Some (between f l v k)).
    { intros f k E S. unfold val. rewrite (proj2 (encb_spec k) E). destruct (Req_EM_T _ _); [contradiction|auto]. }
    assert (Hsome : forall k x, (k < L - 1)%nat -> nth k ds None = Some x -> encloses l v k /\ sloped l k /\ x = Rabs (between p_pres l v k - p)).
    { intros k x Hk E. rewrite Nds in E by auto. unfold val in E. destruct (encb k) eqn:B; [|discriminate].
      apply encb_spec in B. unfold sloped. destruct (Req_EM_T _ _); [discriminate|]. cbn in E. injection E as <-. auto. }
    assert (Hex : existsb (fun b => b) (map encb (seq 0 (L - 1))) = true <-> exists k, encloses l v k).
    { rewrite existsb_exists. split.
      - intros (b & Hb & ->). apply in_map_iff in Hb. destruct Hb as (k & Hb & _). exists k. now apply encb_spec.
      - intros (k & Hk). exists true. split; auto. apply in_map_iff. exists k. split; [now apply encb_spec|].
        apply in_seq. specialize (Henc k Hk). lia. }
    assert (Hempty : only_isothermal l v -> somes ds = []).
    { intros [_ N]. destruct (somes ds) as [|x r] eqn:E; auto. exfalso.
      assert (In x (somes ds)) by (rewrite E; simpl; auto). apply in_somes in H.
      apply (In_nth _ _ None) in H. destruct H as (k & Hk & Ek). rewrite Lds in Hk.
      destruct (Hsome k x Hk Ek) as (A & B & _). now apply (N k). }
    split.
    - intros Hn. destruct (existsb (fun b => b) (map encb (seq 0 (L - 1)))) eqn:Ex.
      + destruct (proj1 Hex eq_refl) as (k0 & Hk0).
        assert (Hs : exists k, encloses l v k /\ sloped l k).
        { apply existsb_exists in Ex. clear Ex.
          assert (D : (exists k, (k < L - 1)%nat /\ encloses l v k /\ sloped l k) \/ (forall k, (k < L - 1)%nat -> encloses l v k -> ~ sloped l k)).
          { generalize (L - 1)%nat. induction n as [|n [(k & Hk & Q)|IH]].
            - right. intros; lia.
            - left. exists k. split; [lia|auto].
            - destruct (encb n) eqn:B.
              + apply encb_spec in B. destruct (Req_EM_T (at_ p_theta l n) (at_ p_theta l (S n))) as [Q|Q].
                * right. intros k Hk Ek. destruct (Nat.eq_dec k n) as [->|]; [intros S; apply S; auto|apply IH; auto; lia].
                * left. exists n. auto.
              + right. intros k Hk Ek. destruct (Nat.eq_dec k n) as [->|]; [|apply IH; auto; lia].
                apply encb_spec in Ek. congruence. }
          destruct D as [(k & _ & Q)|D]; [exists k; auto|]. exfalso. apply Hn. split; [eauto|]. intros k Ek. apply D; auto. }
        destruct Hs as (k1 & E1 & S1).
        assert (Hne : somes ds <> []).
        { intros Z. assert (In (Rabs (between p_pres l v k1 - p)) (somes ds)).
          { apply in_somes. 
            replace (Some (Rabs (between p_pres l v k1 - p))) with (nth k1 ds None).
            - apply nth_In. rewrite Lds. auto.
            - rewrite Nds, Hval by auto. reflexivity. }
          rewrite Z in H. destruct H. }
        destruct (nanargmin_oX ds Hne) as (i & m & Ei & Ni & Li & Mi). rewrite Ei. cbn [bind].
        rewrite Lds in Li, Mi. destruct (Hsome i m Li Ni) as (A & B & Em).
        eexists. split; [reflexivity|]. left. exists i. split.
        * split; auto. split; auto. intros k' E' S'.
          rewrite <- Em. apply (Mi k' (Rabs (between p_pres l v k' - p))); auto.
          rewrite Nds, Hval by auto. reflexivity.
        * rewrite !map_map. rewrite !(nth_map _ _ _ _ 0%nat) by now rewrite seq_length. rewrite seq_nth by auto. cbn [plus].
          rewrite !Hval by auto. reflexivity.
      + eexists. split; [reflexivity|]. right. split; auto. intros k Hk.
        assert (false = true) by (apply Hex; eauto). discriminate.
    - intros Hi. rewrite (proj2 Hex) by apply Hi. rewrite (nanargmin_none ds (Hempty Hi)). reflexivity.
  Qed.
End Station.
