(* interp_climatology in double precision: the interpolated value, and one station *)
From Coq Require Import ZArith List Bool Reals Lra Lia.
From Flocq Require Import Core.Core IEEE754.BinarySingleNaN.
From Verif Require Import Num Np NumFacts NpFacts Wrangling Spec_Finders Spec_Float Spec_Interp Spec_FloatInterp
  Proofs_Besthist Proofs_Stats1 Proofs_Thetas Proofs_Interp
  Proofs_Float1 Proofs_Float2 Proofs_Float3 Proofs_Float5 Proofs_FloatInterp Float.
Import ListNotations.
Local Open Scope R_scope.

Lemma unit_mult w d : 0 <= w <= 1 -> Rabs (w * d) <= Rabs d.
Proof. intros H. rewrite Rabs_mult, (Rabs_pos_eq w) by lra. pose proof (Rabs_pos d). nra. Qed.

Lemma value_spec e (a b w : f64) W : (0 <= e <= 18)%Z -> finite a -> finite b -> finite w ->
  Rabs (val a) <= bpow radix2 e -> Rabs (val b) <= bpow radix2 e ->
  0 <= val w <= 1 -> 0 <= W <= 1 -> Rabs (val w - W) <= bpow radix2 (-51) ->
  let x := interpolate w (a, b) in
  finite x /\ Rabs (val x - (val a + W * (val b - val a))) <= bpow radix2 (e - 49)
  /\ (comparable (val a) (val b) -> Rmin (val a) (val b) <= val x <= Rmax (val a) (val b)).
Proof.
  intros He Fa Fb Fw A B Hw HW D. cbv zeta. unfold interpolate. cbn [fst snd].
  assert (Up : bpow radix2 (e + 1) = 2 * bpow radix2 e) by (rewrite bpow_plus; cbn [bpow]; change (IZR (Z.pow_pos radix2 1)) with 2; ring).
  assert (Up2 : bpow radix2 (e + 2) = 4 * bpow radix2 e) by (rewrite bpow_plus; change (bpow radix2 2) with 4; ring).
  assert (Big : bpow radix2 (e + 2) <= big) by (apply bpow_le; lia).
  pose proof (bpow_gt_0 radix2 e) as Pe.
  assert (S : Rabs (val b - val a) <= bpow radix2 (e + 1)) by (rewrite Up; revert A B; unfold Rabs; repeat destruct Rcase_abs; lra).
  destruct (sub_fin b a Fb Fa) as (Fd & Ed); [lra|].
  assert (Ld : Rabs (val (nsub b a)) <= bpow radix2 (e + 1)) by (rewrite Ed; apply rnd_bound; [lia|exact S]).
  assert (Xd := rnd_err (val b - val a) (e + 1) ltac:(lia) S). rewrite <- Ed in Xd.
  set (d := nsub b a) in *.
  pose proof (unit_mult (val w) (val d) Hw) as Lw.
  destruct (mul_fin w d Fw Fd) as (Fm & Em); [lra|].
  assert (Lm : Rabs (val (nmul w d)) <= bpow radix2 (e + 1)) by (rewrite Em; apply rnd_bound; [lia|lra]).
  assert (Xm := rnd_err (val w * val d) (e + 1) ltac:(lia) ltac:(lra)). rewrite <- Em in Xm.
  set (m := nmul w d) in *.
  assert (La : Rabs (val a + val m) <= bpow radix2 (e + 2)) by (pose proof (Rabs_triang (val a) (val m)); lra).
  destruct (add_fin a m Fa Fm) as (Fx & Ex); [lra|].
  assert (Xx := rnd_err (val a + val m) (e + 2) ltac:(lia) La). rewrite <- Ex in Xx.
  split; [exact Fx|]. split.
  - assert (P53 : bpow radix2 (e + 1 - 54) = bpow radix2 e * / 9007199254740992)
      by (replace (e + 1 - 54)%Z with (e + -53)%Z by lia; rewrite bpow_plus; reflexivity).
    assert (P52 : bpow radix2 (e + 2 - 54) = bpow radix2 e * / 4503599627370496)
      by (replace (e + 2 - 54)%Z with (e + -52)%Z by lia; rewrite bpow_plus; reflexivity).
    assert (P49 : bpow radix2 (e - 49) = bpow radix2 e * / 562949953421312)
      by (replace (e - 49)%Z with (e + -49)%Z by lia; rewrite bpow_plus; reflexivity).
    rewrite P53 in Xd, Xm. rewrite P52 in Xx. rewrite P49. rewrite Up in *.
    change (bpow radix2 (-51)) with (/ 2251799813685248) in D.
    assert (W1 : Rabs ((val w - W) * val d) <= / 2251799813685248 * (2 * bpow radix2 e)).
    { rewrite Rabs_mult. apply Rmult_le_compat; auto using Rabs_pos. }
    assert (W2 : Rabs (W * (val d - (val b - val a))) <= bpow radix2 e * / 9007199254740992).
    { apply Rle_trans with (2 := Xd). now apply unit_mult. }
    replace (val (nadd a m) - (val a + W * (val b - val a)))
      with ((val (nadd a m) - (val a + val m)) + ((val m - val w * val d) + ((val w - W) * val d + W * (val d - (val b - val a))))) by ring.
    pose proof (Rabs_triang (val (nadd a m) - (val a + val m)) ((val m - val w * val d) + ((val w - W) * val d + W * (val d - (val b - val a))))).
    pose proof (Rabs_triang (val m - val w * val d) ((val w - W) * val d + W * (val d - (val b - val a)))).
    pose proof (Rabs_triang ((val w - W) * val d) (W * (val d - (val b - val a)))). lra.
  - intros C. assert (Dx : val d = val b - val a) by (rewrite Ed; apply sterbenz_rnd; exact C).
    assert (Hd : rnd (val d) = val d) by apply rnd_id.
    rewrite Ex. unfold Rmin, Rmax. destruct (Rle_dec (val a) (val b)) as [L|L].
    + assert (0 <= val m <= val d).
      { rewrite Em. split; [rewrite <- rnd_0|rewrite <- Hd at 2]; apply rnd_le; nra. }
      split; [rewrite <- (rnd_id a) at 1|rewrite <- (rnd_id b)]; apply rnd_le; lra.
    + assert (val d <= val m <= 0).
      { rewrite Em. split; [rewrite <- Hd at 1|rewrite <- rnd_0]; apply rnd_le; nra. }
      split; [rewrite <- (rnd_id b)|rewrite <- (rnd_id a) at 2]; apply rnd_le; lra.
Qed.

Lemma nanargmin_from_real l : forall i (best : option (nat * f64)),
  nanargmin_from i (option_map (fun q => (fst q, real (snd q))) best) (map real l)
  = option_map (fun q => (fst q, real (snd q))) (nanargmin_from i best l).
Proof.
  induction l as [|x l IH]; intros i best; [reflexivity|]. cbn [map nanargmin_from]. rewrite <- IH. f_equal.
  rewrite real_isnan. destruct (nisnan x) eqn:Nx; [reflexivity|]. destruct best as [[j m]|]; cbn [option_map fst snd]; [|reflexivity].
  rewrite real_lt. now destruct (nltb x m).
Qed.
Lemma nanargmin_real (l : list f64) : nanargmin (map real l) = nanargmin l.
Proof.
  unfold nanargmin. pose proof (nanargmin_from_real l 0 None) as E. cbn [option_map] in E. rewrite E.
  destruct (nanargmin_from 0 None l) as [[i m]|]; reflexivity.
Qed.

Notation triple := (f64 * f64 * f64)%type.
Definition nan3' : triple := (nnan, nnan, nnan).
Definition val3 (q : triple) : sample := (val (fst (fst q)), val (snd (fst q)), val (snd q)).
(* a complete sample in the range of the sea *)
Definition good3 (q : triple) : Prop :=
  finite (fst (fst q)) /\ finite (snd (fst q)) /\ finite (snd q) /\ sea_sample (val3 q).

Section Station.
  Variables (g : list triple) (L : nat) (v p : f64).
  Hypothesis HL : (length g <= L)%nat.
  Hypothesis G : Forall good3 g.
  Hypothesis Tv : tame v.
  Hypothesis Fp : finite p.
  Hypothesis Bp : Rabs (val p) <= 16384.
  Notation l := (map val3 g).
  Definition scol := pad L g.
  Definition sq k : triple := nth k scol nan3'.

  Lemma scol_length : length scol = L.
  Proof. unfold scol, pad. rewrite app_length, repeat_length. lia. Qed.
  Lemma sq_in k : (k < length g)%nat -> sq k = nth k g nan3' /\ good3 (sq k).
  Proof.
    intros Hk. assert (E : sq k = nth k g nan3') by (unfold sq, scol, pad; now rewrite app_nth1).
    split; [exact E|]. rewrite E. rewrite Forall_forall in G. apply G. now apply nth_In.
  Qed.
  Lemma sq_out k : (length g <= k)%nat -> sq k = nan3'.
  Proof. intros Hk. unfold sq, scol, pad. rewrite app_nth2 by auto. apply nth_repeat. Qed.
  Lemma at_val f k : (k < length g)%nat -> at_ f l k = f (val3 (sq k)).
  Proof.
    intros Hk. unfold at_. rewrite (nth_indep _ dsample (val3 nan3')) by now rewrite map_length.
    rewrite map_nth. now rewrite (proj1 (sq_in k Hk)).
  Qed.
  Lemma good_tame q : good3 q -> tame (snd (fst q)).
  Proof. intros (_ & F & _ & (_ & B & _ & N)). split; auto. Qed.

  Definition schg k : bool := sign_change (nsub (snd (fst (sq k))) v, nsub (snd (fst (sq (S k)))) v).
  Lemma schg_iff k : schg k = true <-> encloses l (val v) k.
  Proof.
    unfold encloses. rewrite map_length. destruct (Nat.ltb_spec (S k) (length g)) as [H|H].
    - rewrite !at_val by lia. destruct (sq_in k ltac:(lia)) as (_ & G0). destruct (sq_in (S k) H) as (_ & G1).
      unfold schg. rewrite (change_iff _ _ v (good_tame _ G0) (good_tame _ G1) Tv). unfold val3, p_theta. cbn [fst snd]. tauto.
    - unfold schg. rewrite (sq_out (S k)) by lia. split; [|lia]. intros E. exfalso. revert E. unfold sign_change. cbn [fst snd nan3'].
      replace (nsub (nnan : f64) v) with (nnan : f64) by (destruct v; reflexivity).
      replace (nmul (nnan : f64) (nsub (snd (fst (sq k))) v)) with (nnan : f64) by (destruct (nsub (snd (fst (sq k))) v); reflexivity).
      discriminate.
  Qed.

  Definition scell (r : triple -> f64) k : f64 :=
    if schg k then interpolate (interpolation_weight v (snd (fst (sq k)), snd (fst (sq (S k))))) (r (sq k), r (sq (S k))) else nnan.

  Lemma scell_nan r k : ~ (encloses l (val v) k /\ sloped l k) -> scell r k = nnan.
  Proof.
    intros N. unfold scell. destruct (schg k) eqn:E; [|reflexivity]. apply schg_iff in E. assert (E' := E).
    destruct E' as (Hk & B). rewrite map_length in Hk.
    destruct (sq_in k ltac:(lia)) as (_ & G0). destruct (sq_in (S k) Hk) as (_ & G1).
    assert (Q : at_ p_theta l k = at_ p_theta l (S k)).
    { destruct (Req_dec (at_ p_theta l k) (at_ p_theta l (S k))) as [Q|Q]; auto. exfalso. apply N. split; auto. }
    rewrite !at_val in Q, B by lia. unfold p_theta, val3 in Q, B. cbn [fst snd] in Q, B.
    apply isothermal_nan; auto using good_tame. lra.
  Qed.

  Lemma scell_fin r (f : sample -> R) e k : (0 <= e <= 18)%Z -> encloses l (val v) k -> sloped l k ->
    (forall q, good3 q -> finite (r q) /\ f (val3 q) = val (r q) /\ Rabs (val (r q)) <= bpow radix2 e) ->
    finite (scell r k) /\ Rabs (val (scell r k) - between f l (val v) k) <= bpow radix2 (e - 49)
    /\ (comparable (at_ f l k) (at_ f l (S k)) ->
        Rmin (at_ f l k) (at_ f l (S k)) <= val (scell r k) <= Rmax (at_ f l k) (at_ f l (S k))).
  Proof.
    intros He E Sl Hr. unfold scell. rewrite (proj2 (schg_iff k) E). destruct E as (Hk & B). rewrite map_length in Hk.
    destruct (sq_in k ltac:(lia)) as (_ & G0). destruct (sq_in (S k) Hk) as (_ & G1).
    unfold sloped, between in *. rewrite !at_val in * by lia. unfold p_theta in *. cbn [val3 fst snd] in *.
    destruct (Hr _ G0) as (F0 & E0 & B0). destruct (Hr _ G1) as (F1 & E1 & B1). rewrite E0, E1.
    pose proof (good_tame _ G0) as T0. pose proof (good_tame _ G1) as T1.
    destruct (weight_spec _ _ v T0 T1 Tv B Sl) as (Fw & Rw & Dw).
    apply (value_spec e _ _ _ (exact_weight _ _ v)); auto. now apply exact_weight_range.
  Qed.

  Notation sal := (fun q : triple => fst (fst q)).
  Notation pres := (fun q : triple => snd q).
  Lemma sal_fin k : encloses l (val v) k -> sloped l k ->
    finite (scell sal k) /\ Rabs (val (scell sal k) - between p_sal l (val v) k) <= eps_sal
    /\ (comparable (at_ p_sal l k) (at_ p_sal l (S k)) ->
        Rmin (at_ p_sal l k) (at_ p_sal l (S k)) <= val (scell sal k) <= Rmax (at_ p_sal l k) (at_ p_sal l (S k))).
  Proof.
    intros E Sl. destruct (scell_fin sal p_sal 6 k ltac:(lia) E Sl) as (F & D & R).
    - intros q (F & _ & _ & (B & _)). auto.
    - split; auto. split; auto. apply Rle_trans with (1 := D). unfold eps_sal. change (bpow radix2 (6 - 49)) with (/ 8796093022208).
      lra.
  Qed.
  Lemma pres_fin k : encloses l (val v) k -> sloped l k ->
    finite (scell pres k) /\ Rabs (val (scell pres k) - between p_pres l (val v) k) <= / 34359738368.
  Proof.
    intros E Sl. destruct (scell_fin pres p_pres 14 k ltac:(lia) E Sl) as (F & D & R); auto.
    intros q (_ & _ & F & (_ & _ & B & _)). auto.
  Qed.

  (* distance to the float pressure *)
  Definition sdist k : f64 := nabs (nsub (scell pres k) p).
  Lemma sdist_nan k : ~ (encloses l (val v) k /\ sloped l k) -> sdist k = nnan.
  Proof. intros N. unfold sdist. rewrite scell_nan by auto. destruct p; reflexivity. Qed.
  Lemma between_bound k : encloses l (val v) k -> sloped l k -> Rabs (between p_pres l (val v) k) <= 16384.
  Proof.
    intros (Hk & B) Sl. rewrite map_length in Hk.
    destruct (sq_in k ltac:(lia)) as (_ & G0). destruct (sq_in (S k) Hk) as (_ & G1).
    unfold between, sloped in *. rewrite !at_val in * by lia. destruct G0 as (_ & _ & _ & (_ & _ & B0 & _)), G1 as (_ & _ & _ & (_ & _ & B1 & _)).
    unfold p_theta in *. cbn [val3 fst snd] in *. fold (exact_weight (snd (fst (sq k))) (snd (fst (sq (S k)))) v).
    pose proof (exact_weight_range _ _ v B Sl) as W. set (w := exact_weight _ _ _) in *. unfold p_pres, val3 in *. cbn [fst snd] in *.
    apply abs_le. apply Rabs_le_inv in B0, B1. nra.
  Qed.
  Lemma sdist_fin k : encloses l (val v) k -> sloped l k ->
    finite (sdist k) /\ Rabs (val (sdist k) - Rabs (between p_pres l (val v) k - val p)) <= eps_pres.
  Proof.
    intros E Sl. destruct (pres_fin k E Sl) as (F & D). pose proof (between_bound k E Sl) as B.
    unfold sdist. set (x := scell pres k) in *. set (y := between p_pres l (val v) k) in *.
    assert (K : Rabs (val x - val p) <= bpow radix2 16).
    { change (bpow radix2 16) with 65536. revert D B Bp. unfold Rabs. repeat destruct Rcase_abs; lra. }
    destruct (sub_fin x p F Fp) as (Fs & Es); [apply Rle_trans with (1 := K); apply bpow_le; lia|].
    split; [now apply fin_abs|]. rewrite val_abs, Es.
    pose proof (rnd_err _ 16 ltac:(lia) K) as X. change (bpow radix2 (16 - 54)) with (/ 274877906944) in X.
    apply Rle_trans with (Rabs (rnd (val x - val p) - (y - val p))); [apply Rabs_triang_inv2|].
    replace (rnd (val x - val p) - (y - val p)) with ((rnd (val x - val p) - (val x - val p)) + (val x - y)) by ring.
    pose proof (Rabs_triang (rnd (val x - val p) - (val x - val p)) (val x - y)). unfold eps_pres. lra.
  Qed.

  Definition sopt k : option R := match real (sdist k) with Fin r => Some r | _ => None end.
  Lemma sopt_real k : real (sdist k) = oX (sopt k).
  Proof.
    unfold sopt. destruct (Classical_Prop.classic (encloses l (val v) k /\ sloped l k)) as [(E & S)|N].
    - destruct (sdist_fin k E S) as (F & _). rewrite (real_fin _ F). reflexivity.
    - now rewrite (sdist_nan k N).
  Qed.
  Lemma sopt_some k r : sopt k = Some r -> encloses l (val v) k /\ sloped l k /\ r = val (sdist k).
  Proof.
    unfold sopt. intros H. destruct (Classical_Prop.classic (encloses l (val v) k /\ sloped l k)) as [(E & S)|N].
    - destruct (sdist_fin k E S) as (F & _). rewrite (real_fin _ F) in H. split; auto. split; auto. congruence.
    - rewrite (sdist_nan k N) in H. discriminate.
  Qed.

  Lemma splaceholder (r : triple -> f64) :
    map (fun q : bool * f64 * (f64 * f64) => if fst (fst q) then interpolate (snd (fst q)) (snd q) else nnan)
      (combine (combine (map sign_change (steps (map (fun t => nsub t v) (map (fun q => snd (fst q)) scol))))
                        (map (interpolation_weight v) (steps (map (fun q => snd (fst q)) scol)))) (steps (map r scol)))
    = map (scell r) (seq 0 (L - 1)).
  Proof.
    rewrite (steps_map (map (fun t => nsub t v) _) nnan), (steps_map (map (fun q => snd (fst q)) scol) nnan), (steps_map (map r scol) nnan).
    rewrite !map_length, scol_length, !map_map, !combine_maps, !map_map. apply map_ext_in. intros k Hk. apply in_seq in Hk.
    cbn [fst snd]. rewrite !(nth_map _ scol _ _ nan3') by (rewrite scol_length; lia). reflexivity.
  Qed.
  Lemma schanges :
    map sign_change (steps (map (fun t => nsub t v) (map (fun q => snd (fst q)) scol))) = map schg (seq 0 (L - 1)).
  Proof.
    rewrite (steps_map (map (fun t => nsub t v) _) nnan). rewrite !map_length, scol_length, !map_map.
    apply map_ext_in. intros k Hk. apply in_seq in Hk.
    rewrite !(nth_map _ scol _ _ nan3') by (rewrite scol_length; lia). reflexivity.
  Qed.

  Lemma station_near :
    (~ only_isothermal l (val v) -> exists o, interp_station v p scol = Ok o /\ near_gives l (val v) (val p) o) /\
    (only_isothermal l (val v) -> interp_station v p scol = Raise ValueError).
  Proof.
    unfold interp_station. cbv zeta.
    rewrite (splaceholder snd), (splaceholder (fun q => fst (fst q))). rewrite schanges.
    rewrite <- nanargmin_real, !map_map.
    rewrite (map_ext (fun k => real (nabs (nsub (scell snd k) p))) (fun k => oX (sopt k))) by (intros k; apply sopt_real).
    rewrite <- (map_map sopt oX). set (ds := map sopt (seq 0 (L - 1))).
    assert (Lds : length ds = (L - 1)%nat) by (unfold ds; now rewrite map_length, seq_length).
    assert (Nds : forall k, (k < L - 1)%nat -> nth k ds None = sopt k).
    { intros k Hk. unfold ds. rewrite (nth_map _ _ _ _ 0%nat) by now rewrite seq_length. now rewrite seq_nth. }
    assert (Henc : forall k, encloses l (val v) k -> (k < L - 1)%nat) by (intros k [Hk _]; rewrite map_length in Hk; lia).
    assert (Hval : forall k, encloses l (val v) k -> sloped l k -> sopt k = Some (val (sdist k))).
    { intros k E Sl. unfold sopt. destruct (sdist_fin k E Sl) as (F & _). now rewrite (real_fin _ F). }
    assert (Hex : existsb (fun b => b) (map schg (seq 0 (L - 1))) = true <-> exists k, encloses l (val v) k).
    { rewrite existsb_exists. split.
      - intros (b & Hb & ->). apply in_map_iff in Hb. destruct Hb as (k & Hb & _). exists k. now apply schg_iff.
      - intros (k & Hk). exists true. split; auto. apply in_map_iff. exists k. split; [now apply schg_iff|].
        apply in_seq. specialize (Henc k Hk). lia. }
    split.
    - intros Hn. destruct (existsb (fun b => b) (map schg (seq 0 (L - 1)))) eqn:Ex.
      + assert (Hs : exists k, encloses l (val v) k /\ sloped l k).
        { apply Classical_Prop.NNPP. intros N. apply Hn. split; [now apply Hex|]. intros k E Sl. apply N. eauto. }
        destruct Hs as (k1 & E1 & S1).
        assert (Hne : somes ds <> []).
        { intros Z. assert (I : In (val (sdist k1)) (somes ds)).
          { apply in_somes. rewrite <- (Hval k1), <- Nds by auto. apply nth_In. rewrite Lds. auto. }
          rewrite Z in I. destruct I. }
        destruct (nanargmin_oX ds Hne) as (i & m & Ei & Ni & Li & Mi). rewrite Ei. cbn [bind].
        rewrite Lds in Li, Mi. rewrite Nds in Ni by auto. destruct (sopt_some i m Ni) as (EA & EB & Em).
        eexists. split; [reflexivity|]. left. exists i.
        rewrite !(nth_map _ _ _ _ 0%nat) by now rewrite seq_length. rewrite seq_nth by auto. cbn [plus fst snd].
        destruct (sal_fin i EA EB) as (Fs & Ds & Rs). destruct (pres_fin i EA EB) as (Fq & Dq).
        split; auto. split; auto. split; auto. split; auto. split; auto.
        split; [apply Rle_trans with (1 := Dq); unfold eps_pres; lra|]. split; auto. intros k' E' S'.
        destruct (sdist_fin i EA EB) as (_ & Di). destruct (sdist_fin k' E' S') as (_ & Dk).
        assert (M : m <= val (sdist k')).
        { apply (Mi k' (val (sdist k'))); auto. rewrite Nds by auto. now apply Hval. }
        rewrite Em in M. apply Rabs_le_inv in Di, Dk. lra.
      + eexists. split; [reflexivity|]. right. split; [|reflexivity]. intros k Hk.
        assert (false = true) by (apply Hex; eauto). discriminate.
    - intros Hi. rewrite (proj2 Hex) by apply Hi. rewrite nanargmin_none; [reflexivity|].
      destruct (somes ds) as [|x r] eqn:E; auto. exfalso. assert (I : In x (somes ds)) by (rewrite E; simpl; auto).
      apply in_somes in I. apply in_map_iff in I. destruct I as (k & Hk & _). destruct (sopt_some k x Hk) as (EA & EB & _).
      destruct Hi as (_ & N). now apply (N k).
  Qed.
End Station.
