(* find_25boxes in double precision: away from the edges of the boxes it finds the same boxes as in
   exact arithmetic *)
From Coq Require Import ZArith List Bool Reals Lra Lia.
From Flocq Require Import Core.Core IEEE754.BinarySingleNaN.
From Verif Require Import Num Np NumFacts NpFacts Float Spec_Float Utilities Finders Spec_Finders
  Proofs_Besthist Proofs_Boxes Proofs_Float1 Proofs_Float2 Proofs_Float3 Proofs_Float4.
Import ListNotations.
Local Open Scope R_scope.

Lemma argmin_from_real l : forall i b m, argmin_from i b (real m) (map real l) = argmin_from i b m l.
Proof.
  induction l as [|x l IH]; intros i b m; [reflexivity|]. cbn [map argmin_from].
  rewrite !real_isnan, real_lt. destruct (nisnan m); [reflexivity|].
  destruct (nisnan x || nltb x m); apply IH.
Qed.
Lemma argmin_real l : argmin (map real l) = argmin l.
Proof. destruct l as [|x l]; [reflexivity|]. apply argmin_from_real. Qed.

Lemma val_abs (x : f64) : val (nabs x) = Rabs (val x).
Proof. exact (B2R_Babs 53 1024 x). Qed.
Lemma fin_abs (x : f64) : finite x -> finite (nabs x).
Proof. intros F. unfold finite. change (nabs x) with (Babs x). now rewrite is_finite_Babs. Qed.

(* a double within e of a real number *)
Definition close (e : R) (v : f64) (r : R) : Prop := finite v /\ Rabs (val v - r) <= e.


(* the nearest entry of an axis of points ten degrees apart *)
Section Axis.
  Variable a : nat -> Z.
  Variable n : nat.
  Hypothesis a_mid : forall i, (i < n)%nat -> exists k : Z, a i = (10 * k - 5)%Z.
  Hypothesis a_inj : forall i j, (i < n)%nat -> (j < n)%nat -> a i = a j -> i = j.
  Hypothesis a_step : forall i j, (i < n)%nat -> (j < n)%nat -> a i <> a j ->
    exists k, (k < n)%nat /\ (a k = a j + 10 /\ a j < a i \/ a k = a j - 10 /\ a i < a j)%Z.
  Hypothesis a_small : forall i, (i < n)%nat -> (-90 <= a i <= 370)%Z.

  (* if r is at least as near to entry j as to any other, then nearer by a margin *)
  Lemma margin r i j : (i < n)%nat -> (j < n)%nat -> a i <> a j -> away r ->
    (forall k, (k < n)%nat -> Rabs (IZR (a j) - r) <= Rabs (IZR (a k) - r)) ->
    Rabs (IZR (a j) - r) + 2 * tiny < Rabs (IZR (a i) - r).
  Proof.
    intros Hi Hj N W M. destruct (a_step i j Hi Hj N) as (k & Hk & K).
    destruct (a_mid i Hi) as (ki & Ei). destruct (a_mid j Hj) as (kj & Ej).
    specialize (M k Hk). assert (T : 0 < tiny) by (unfold tiny; lra).
    assert (T1 : tiny < 1) by (unfold tiny; lra).
    destruct K as [(E & L)|(E & L)].
    - pose proof (W kj) as Wk. rewrite E, plus_IZR in M. rewrite Ei, Ej in *.
      assert (Q : (kj + 1 <= ki)%Z) by lia. apply IZR_le in Q. rewrite plus_IZR in Q.
      rewrite !minus_IZR, !mult_IZR in *.
      unfold Rabs in *. repeat destruct Rcase_abs; try lra.
    - pose proof (W (kj - 1)%Z) as Wk. rewrite E, minus_IZR in M. rewrite Ei, Ej in *.
      assert (Q : (ki <= kj - 1)%Z) by lia. apply IZR_le in Q. rewrite minus_IZR in Q, Wk.
      rewrite !minus_IZR, !mult_IZR in *.
      unfold Rabs in *. repeat destruct Rcase_abs; try lra.
  Qed.

  Definition dist_f (v : f64) : list f64 := map (fun x => nabs (nsub x v)) (map (fun i => nofZ (a i)) (seq 0 n)).
  Definition dist_r (r : R) : list R := map (fun i => Rabs (IZR (a i) - r)) (seq 0 n).

  Lemma same_argmin v r : (0 < n)%nat -> close (tiny / 2) v r -> -140 <= r <= 370 -> away r ->
    argmin (dist_f v) = argmin (map Fin (dist_r r)).
  Proof.
    intros Hn (F & C) B W. apply abs_split in C. pose proof big_1000 as BIG.
    assert (TT : 0 < tiny < / 100) by (unfold tiny; lra).
    assert (D : forall i, (i < n)%nat -> finite (nabs (nsub (nofZ (a i)) v))
        /\ Rabs (val (nabs (nsub (nofZ (a i)) v)) - Rabs (IZR (a i) - r)) < tiny).
    { intros i Hi. pose proof (a_small i Hi) as (s0 & s1). destruct (ofZ_fin (a i) ltac:(lia)) as (Fa & Ea).
      apply IZR_le in s0, s1.
      destruct (sub_fin (nofZ (a i)) v Fa F ltac:(rewrite Ea; apply abs_le; lra)) as (Fs & Es).
      split; [now apply fin_abs|]. rewrite val_abs, Es, Ea.
      pose proof (abs_split _ _ (rnd_512' (IZR (a i) - val v) ltac:(apply abs_le; lra))) as K.
      eapply Rle_lt_trans; [apply Rabs_triang_inv2|].
      apply Rabs_def1; unfold tiny in *; lra. }
    assert (DF : Forall finite (dist_f v)).
    { unfold dist_f. rewrite map_map. apply Forall_map, Forall_forall. intros i Hi. apply in_seq in Hi.
      apply D. lia. }
    rewrite <- argmin_real, map_real_fin by exact DF.
    assert (L1 : length (map val (dist_f v)) = n) by (unfold dist_f; rewrite !map_length; apply seq_length).
    assert (L2 : length (dist_r r) = n) by (unfold dist_r; rewrite map_length; apply seq_length).
    destruct (argmin_fin (map val (dist_f v))) as (i & Ei & Hi & Mi & _).
    { intros E. rewrite E in L1. cbn in L1. lia. }
    destruct (argmin_fin (dist_r r)) as (j & Ej & Hj & Mj & _).
    { intros E. rewrite E in L2. cbn in L2. lia. }
    rewrite Ei, Ej. rewrite L1 in *. rewrite L2 in *.
    assert (N1 : forall k, (k < n)%nat -> nth k (map val (dist_f v)) 0 = val (nabs (nsub (nofZ (a k)) v))).
    { intros k Hk. unfold dist_f. rewrite !map_map. rewrite (nth_map _ _ _ _ 0%nat) by now rewrite seq_length.
      now rewrite seq_nth. }
    assert (N2 : forall k, (k < n)%nat -> nth k (dist_r r) 0 = Rabs (IZR (a k) - r)).
    { intros k Hk. unfold dist_r. rewrite (nth_map _ _ _ _ 0%nat) by now rewrite seq_length.
      now rewrite seq_nth. }
    destruct (Nat.eq_dec i j) as [|Nij]; [assumption|exfalso].
    assert (Na : a i <> a j) by (intros E; apply Nij; now apply a_inj).
    assert (G : Rabs (IZR (a j) - r) + 2 * tiny < Rabs (IZR (a i) - r)).
    { apply margin; try assumption. intros k Hk. rewrite <- !N2 by assumption. now apply Mj. }
    specialize (Mi j Hj). rewrite !N1 in Mi by assumption.
    destruct (D i Hi) as (_ & Di). destruct (D j Hj) as (_ & Dj).
    apply Rabs_def2 in Di. apply Rabs_def2 in Dj. lra.
  Qed.
End Axis.

Definition ax (k : nat) : Z := (10 * Z.of_nat k - 5)%Z.
Definition ay (k : nat) : Z := (85 - 10 * Z.of_nat k)%Z.

Lemma same_x v r : close (tiny / 2) v r -> -140 <= r <= 370 -> away r ->
  argmin (map (fun x => nabs (nsub x v)) la_lookup_x)
  = argmin (map (fun x => nabs (nsub x (Fin r))) la_lookup_x).
Proof.
  intros C B W. transitivity (argmin (map Fin (dist_r ax 38 r))).
  - apply (same_argmin ax 38); try assumption; try lia; unfold ax.
    + intros i _. now exists (Z.of_nat i).
    + intros; lia.
    + intros i j Hi Hj N. destruct (Nat.lt_trichotomy j i) as [L|[L|L]].
      * exists (j + 1)%nat. lia.
      * subst; congruence.
      * exists (j - 1)%nat. lia.
    + intros; lia.
  - unfold la_lookup_x, dist_r. rewrite !map_map. reflexivity.
Qed.

Lemma same_y v r : close (tiny / 2) v r -> -140 <= r <= 370 -> away r ->
  argmin (map (fun x => nabs (nsub x v)) la_lookup_y)
  = argmin (map (fun x => nabs (nsub x (Fin r))) la_lookup_y).
Proof.
  intros C B W. transitivity (argmin (map Fin (dist_r ay 18 r))).
  - apply (same_argmin ay 18); try assumption; try lia; unfold ay.
    + intros i _. exists (9 - Z.of_nat i)%Z. lia.
    + intros; lia.
    + intros i j Hi Hj N. destruct (Nat.lt_trichotomy j i) as [L|[L|L]].
      * exists (j + 1)%nat. lia.
      * subst; congruence.
      * exists (j - 1)%nat. lia.
    + intros; lia.
  - unfold la_lookup_y, dist_r. rewrite !map_map. reflexivity.
Qed.

Lemma same_box vx vy rx ry : close (tiny / 2) vx rx -> close (tiny / 2) vy ry ->
  -140 <= rx <= 370 -> -140 <= ry <= 370 -> away rx -> away ry ->
  nearest_neighbour la_lookup_x la_lookup_y la_lookup_no vx vy
  = nearest_neighbour la_lookup_x la_lookup_y la_lookup_no (Fin rx) (Fin ry).
Proof.
  intros Cx Cy Bx By Wx Wy. unfold nearest_neighbour.
  now rewrite (same_x vx rx), (same_y vy ry) by assumption.
Qed.

(* ---- the shifted positions ---- *)
Lemma lit a : (1 <= a <= 3200)%Z -> close (/ 500000000000000) (nq a 100) (IZR a / 100).
Proof.
  intros Ha. unfold nq. destruct (ofZ_fin a ltac:(lia)) as (Fa & Ea).
  destruct (ofZ_fin 100 ltac:(lia)) as (Fb & Eb). pose proof big_1000 as BIG.
  destruct Ha as (a0 & a1). apply IZR_le in a0, a1.
  destruct (div_fin (nofZ a) (nofZ 100) Fa ltac:(rewrite Eb; lra)
              ltac:(rewrite Ea, Eb; apply abs_le; lra)) as (F & E).
  split; [exact F|]. rewrite E, Ea, Eb.
  eapply Rle_trans; [apply (rnd_err _ 5); [lia|apply abs_le; change (bpow radix2 5) with 32; lra]|].
  change (bpow radix2 (5 - 54)) with (/ 562949953421312). lra.
Qed.

Definition e1 : R := / 30000000000000.

Lemma plus_lit x a : finite x -> -90 <= val x <= 360 -> (1 <= a <= 3200)%Z ->
  close e1 (nadd x (nq a 100)) (val x + IZR a / 100).
Proof.
  intros F B Ha. destruct (lit a Ha) as (Fl & El). apply abs_split in El. pose proof big_1000 as BIG.
  destruct Ha as (a0 & a1). apply IZR_le in a0, a1.
  destruct (add_fin x (nq a 100) F Fl ltac:(apply abs_le; lra)) as (Fs & Es).
  split; [exact Fs|]. rewrite Es.
  pose proof (abs_split _ _ (rnd_512' (val x + val (nq a 100)) ltac:(apply abs_le; lra))) as K.
  apply abs_le. unfold e1. lra.
Qed.
Lemma minus_lit x a : finite x -> -90 <= val x <= 360 -> (1 <= a <= 3200)%Z ->
  close e1 (nsub x (nq a 100)) (val x - IZR a / 100).
Proof.
  intros F B Ha. destruct (lit a Ha) as (Fl & El). apply abs_split in El. pose proof big_1000 as BIG.
  destruct Ha as (a0 & a1). apply IZR_le in a0, a1.
  destruct (sub_fin x (nq a 100) F Fl ltac:(apply abs_le; lra)) as (Fs & Es).
  split; [exact Fs|]. rewrite Es.
  pose proof (abs_split _ _ (rnd_512' (val x - val (nq a 100)) ltac:(apply abs_le; lra))) as K.
  apply abs_le. unfold e1. lra.
Qed.

Lemma close_weak e e' v r : e <= e' -> close e v r -> close e' v r.
Proof. intros L (F & C). split; [exact F|lra]. Qed.
Lemma e1_tiny : e1 <= tiny / 2. Proof. unfold e1, tiny. lra. Qed.

(* wrapped positions *)
Lemma wrap_high_close v r : close e1 v r -> 0 <= r <= 400 -> away r ->
  exists r', wrap_high (Fin r) = Fin r' /\ close (tiny / 2) (wrap_high v) r' /\ 0 <= r' <= 360 /\ away r'.
Proof.
  intros (F & C) B W. apply abs_split in C. destruct (k_ok 360 ltac:(lia)) as (F3 & E3).
  pose proof big_1000 as BIG. unfold wrap_high. rewrite (le_finite _ _ F3 F), E3.
  pose proof (W 36%Z) as W36.
  assert (Q : Rleb 360 (val v) = Rleb 360 r).
  { unfold Rleb, e1, tiny in *. destruct (Rle_dec 360 (val v)), (Rle_dec 360 r); try reflexivity; exfalso;
      unfold Rabs in W36; destruct Rcase_abs in W36; lra. }
  change (nleb (nofZ 360) (Fin r)) with (Rleb 360 r). rewrite Q. destruct (Rleb 360 r) eqn:L.
  - apply Rleb_true in L. exists (r - 360). split; [reflexivity|].
    destruct (sub_fin v (nofZ 360) F F3 ltac:(rewrite E3; apply abs_le; unfold e1 in *; lra)) as (Fs & Es).
    rewrite E3 in Es.
    pose proof (abs_split _ _ (rnd_512' (val v - 360) ltac:(apply abs_le; unfold e1 in *; lra))) as K.
    split; [split; [exact Fs|]|split; [lra|]].
    + rewrite Es. apply abs_le. unfold e1, tiny in *. lra.
    + intros k. specialize (W (k + 36)%Z). rewrite plus_IZR in W.
      replace (r - 360 - 10 * IZR k) with (r - 10 * (IZR k + 36)) by ring. exact W.
  - apply Rleb_false in L. exists r. split; [reflexivity|].
    split; [split; [exact F|apply abs_le; unfold e1, tiny in *; lra]|]. split; [lra|exact W].
Qed.

Lemma wrap_low_close v r : close e1 v r -> -100 <= r <= 360 -> away r ->
  exists r', wrap_low (Fin r) = Fin r' /\ close (tiny / 2) (wrap_low v) r' /\ 0 <= r' <= 360 /\ away r'.
Proof.
  intros (F & C) B W. apply abs_split in C. destruct (k_ok 360 ltac:(lia)) as (F3 & E3).
  destruct (k_ok 0 ltac:(lia)) as (F0 & E0).
  pose proof big_1000 as BIG. unfold wrap_low. rewrite (lt_finite _ _ F F0), E0.
  pose proof (W 0%Z) as W0.
  assert (Q : Rltb (val v) 0 = Rltb r 0).
  { unfold Rltb, e1, tiny in *. destruct (Rlt_dec (val v) 0), (Rlt_dec r 0); try reflexivity; exfalso;
      unfold Rabs in W0; destruct Rcase_abs in W0; lra. }
  change (nltb (Fin r) (nofZ 0)) with (Rltb r 0). rewrite Q. destruct (Rltb r 0) eqn:L.
  - apply Rltb_true in L. exists (r + 360). split; [reflexivity|].
    destruct (add_fin v (nofZ 360) F F3 ltac:(rewrite E3; apply abs_le; unfold e1 in *; lra)) as (Fs & Es).
    rewrite E3 in Es.
    pose proof (abs_split _ _ (rnd_512' (val v + 360) ltac:(apply abs_le; unfold e1 in *; lra))) as K.
    split; [split; [exact Fs|]|split; [lra|]].
    + rewrite Es. apply abs_le. unfold e1, tiny in *. lra.
    + intros k. specialize (W (k - 36)%Z). rewrite minus_IZR in W.
      replace (r + 360 - 10 * IZR k) with (r - 10 * (IZR k - 36)) by ring. exact W.
  - apply Rltb_false in L. exists r. split; [reflexivity|].
    split; [split; [exact F|apply abs_le; unfold e1, tiny in *; lra]|]. split; [lra|exact W].
Qed.

Lemma away_shift r s k : away (r + 1 / 100) -> s = r + 1 / 100 + 10 * IZR k -> away s.
Proof.
  intros W -> j. specialize (W (j - k)%Z). rewrite minus_IZR in W.
  replace (r + 1 / 100 + 10 * IZR k - 10 * IZR j) with (r + 1 / 100 - 10 * (IZR j - IZR k)) by ring.
  exact W.
Qed.

Definition fits (v : f64) (x : XR) : Prop :=
  exists r, x = Fin r /\ close (tiny / 2) v r /\ -140 <= r <= 370 /\ away r.

Lemma fits_high x a k : finite x -> 0 <= val x < 360 -> away (val x + 1 / 100) ->
  (1 <= a <= 3200)%Z -> IZR a / 100 = 1 / 100 + 10 * IZR k ->
  fits (wrap_high (nadd x (nq a 100))) (wrap_high (nadd (Fin (val x)) (nq a 100))).
Proof.
  intros F B W Ha E. rewrite nq_fin by lia. cbn [nadd XR_Num xadd].
  pose proof Ha as (a0 & a1). apply IZR_le in a0, a1.
  destruct (wrap_high_close (nadd x (nq a 100)) (val x + IZR a / 100)) as (r' & R1 & R2 & R3 & R4).
  - apply plus_lit; [exact F|lra|exact Ha].
  - lra.
  - apply (away_shift (val x) _ k W). lra.
  - exists r'. repeat split; try assumption; try apply R2; lra.
Qed.
Lemma fits_low x a k : finite x -> 0 <= val x < 360 -> away (val x + 1 / 100) ->
  (1 <= a <= 3200)%Z -> - (IZR a / 100) = 1 / 100 + 10 * IZR k ->
  fits (wrap_low (nsub x (nq a 100))) (wrap_low (nsub (Fin (val x)) (nq a 100))).
Proof.
  intros F B W Ha E. rewrite nq_fin by lia. cbn [nsub XR_Num xsub].
  pose proof Ha as (a0 & a1). apply IZR_le in a0, a1.
  destruct (wrap_low_close (nsub x (nq a 100)) (val x - IZR a / 100)) as (r' & R1 & R2 & R3 & R4).
  - apply minus_lit; [exact F|lra|exact Ha].
  - lra.
  - apply (away_shift (val x) _ k W). lra.
  - exists r'. repeat split; try assumption; try apply R2; lra.
Qed.
Lemma fits_up y a k : finite y -> -90 <= val y <= 90 -> away (val y + 1 / 100) ->
  (1 <= a <= 3200)%Z -> IZR a / 100 = 1 / 100 + 10 * IZR k ->
  fits (nadd y (nq a 100)) (nadd (Fin (val y)) (nq a 100)).
Proof.
  intros F B W Ha E. rewrite nq_fin by lia. cbn [nadd XR_Num xadd].
  pose proof Ha as (a0 & a1). apply IZR_le in a0, a1. exists (val y + IZR a / 100). split; [reflexivity|].
  split; [apply (close_weak e1); [apply e1_tiny|apply plus_lit; [exact F|lra|exact Ha]]|].
  split; [lra|]. apply (away_shift (val y) _ k W). lra.
Qed.
Lemma fits_down y a k : finite y -> -90 <= val y <= 90 -> away (val y + 1 / 100) ->
  (1 <= a <= 3200)%Z -> - (IZR a / 100) = 1 / 100 + 10 * IZR k ->
  fits (nsub y (nq a 100)) (nsub (Fin (val y)) (nq a 100)).
Proof.
  intros F B W Ha E. rewrite nq_fin by lia. cbn [nsub XR_Num xsub].
  pose proof Ha as (a0 & a1). apply IZR_le in a0, a1. exists (val y - IZR a / 100). split; [reflexivity|].
  split; [apply (close_weak e1); [apply e1_tiny|apply minus_lit; [exact F|lra|exact Ha]]|].
  split; [lra|]. apply (away_shift (val y) _ k W). lra.
Qed.

Lemma map_same {A A' B} (P : A -> A' -> Prop) (f : A -> B) (g : A' -> B) l l' :
  (forall a a', P a a' -> f a = g a') -> Forall2 P l l' -> map f l = map g l'.
Proof. intros E. induction 1; [reflexivity|]. cbn. now rewrite (E _ _ H), IHForall2. Qed.
Lemma flat_map_same {A A' B} (P : A -> A' -> Prop) (f : A -> list B) (g : A' -> list B) l l' :
  (forall a a', P a a' -> f a = g a') -> Forall2 P l l' -> flat_map f l = flat_map g l'.
Proof. intros E. induction 1; [reflexivity|]. cbn. now rewrite (E _ _ H), IHForall2. Qed.

Lemma same_boxes x y : finite x -> finite y -> 0 <= val x < 360 -> -90 <= val y <= 90 ->
  away (val x + 1 / 100) -> away (val y + 1 / 100) ->
  box_numbers x y = box_numbers (Fin (val x)) (Fin (val y)).
Proof.
  intros Fx Fy Bx By Wx Wy. unfold box_numbers.
  apply (flat_map_same fits).
  2:{ unfold ln_y. constructor; [|constructor; [|constructor; [|constructor; [|constructor; [|constructor]]]]].
      - apply (fits_up y 1 0); try assumption; [lia|lra].
      - apply (fits_up y 1001 1); try assumption; [lia|lra].
      - apply (fits_down y 999 (-1)); try assumption; [lia|lra].
      - apply (fits_up y 2001 2); try assumption; [lia|lra].
      - apply (fits_down y 1999 (-2)); try assumption; [lia|lra]. }
  intros vy xy (ry & -> & Cy & By' & Wy'). apply (map_same fits).
  2:{ unfold ln_x, ln_x0. constructor; [|constructor; [|constructor; [|constructor; [|constructor; [|constructor]]]]].
      - apply (fits_high x 1 0); try assumption; [lia|lra].
      - apply (fits_high x 1001 1); try assumption; [lia|lra].
      - apply (fits_low x 999 (-1)); try assumption; [lia|lra].
      - apply (fits_high x 2001 2); try assumption; [lia|lra].
      - apply (fits_low x 1999 (-2)); try assumption; [lia|lra]. }
  intros vx xx (rx & -> & Cx & Bx' & Wx'). now apply same_box.
Qed.

Lemma boxes_f64 x y (tbl : list (list f64)) : finite x -> finite y ->
  0 <= val x < 360 -> -7001/100 <= val y <= 6999/100 ->
  away (val x + 1 / 100) -> away (val y + 1 / 100) -> length tbl = 648%nat ->
  exists ns, length ns = 25%nat /\ NoDup ns
   /\ find_25boxes x y tbl = Ok (map (fun n => nth (n - 1) tbl []) ns)
   /\ (forall i j, (i < 5)%nat -> (j < 5)%nat ->
        box_covers (nth (5 * i + j) ns 0%nat) (val x + nth j offsets 0) (val y + nth i offsets 0))
   /\ (forall i j, (i < 5)%nat -> (j < 5)%nat ->
        let n := nth (5 * i + j) ns 0%nat in let n0 := nth 0 ns 0%nat in
        (exists k, box_lon n = box_lon n0 + 10 * nth j shifts 0 + 360 * k)%Z
        /\ box_latN n = (box_latN n0 + 10 * nth i shifts 0)%Z).
Proof.
  intros Fx Fy Bx By Wx Wy Ht. exists (box_numbers x y).
  assert (E : box_numbers x y = box_numbers (Fin (val x)) (Fin (val y))) by (apply same_boxes; try assumption; lra).
  assert (L : val y < 6999 / 100).
  { destruct (proj2 By) as [?|Q]; [assumption|exfalso]. specialize (Wy 7%Z). rewrite Q in Wy.
    replace (6999 / 100 + 1 / 100 - 10 * 7) with 0 in Wy by lra. rewrite Rabs_R0 in Wy. unfold tiny in Wy. lra. }
  split; [apply box_numbers_length|]. split; [rewrite E; apply boxes_distinct; [exact Bx|lra]|]. split.
  - apply boxes_ok.
    + destruct x; try reflexivity; discriminate.
    + destruct y; try reflexivity; discriminate.
    + intros n Hn. apply box_numbers_range in Hn. lia.
  - destruct (boxes_cover_numbers (val x) (val y) Bx By) as (A & B). rewrite E. split; [exact A|].
    intros i j Hi Hj. destruct (B i j Hi Hj) as (B1 & B2). split; [exact B1|now apply B2].
Qed.
