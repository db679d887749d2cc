(* wrap_longitude in double precision *)
From Coq Require Import ZArith List Bool Reals Lra Lia.
From Flocq Require Import Core.Core IEEE754.BinarySingleNaN Sterbenz.
From Verif Require Import Num Np NumFacts Float Spec_Float Utilities Proofs_Float1 Proofs_Float2.
Import ListNotations.
Local Open Scope R_scope.

Definition w1 (x : f64) : f64 := if nltb x (nofZ 0) then nadd x (nofZ 360) else x.
Definition w2 (x : f64) : f64 := if nleb x (nofZ 40) then nadd (nofZ 360) x else x.
Definition seamed (l : list f64) : bool := existsb (fun x => nleb (nofZ 320) x) l.

Lemma wrap_f64 l : wrap_longitude l = if seamed (map w1 l) then map w2 (map w1 l) else map w1 l.
Proof. reflexivity. Qed.

Lemma k_ok z : (Z.abs z < 1000)%Z -> finite (nofZ z) /\ val (nofZ z) = IZR z.
Proof. intros. apply ofZ_fin. lia. Qed.

Lemma pow9 : bpow radix2 9 = 512. Proof. reflexivity. Qed.

Lemma abs_le r b : - b <= r <= b -> Rabs r <= b.
Proof. intros. apply Rabs_le. lra. Qed.

Lemma sterbenz_rnd (x y : f64) : val y / 2 <= val x <= 2 * val y ->
  rnd (val x - val y) = val x - val y.
Proof.
  intros H. apply round_generic; auto with typeclass_instances.
  apply sterbenz; auto with typeclass_instances; apply generic_format_B2R.
Qed.

Lemma val_opp (x : f64) : val (nopp x) = - val x.
Proof. exact (B2R_Bopp 53 1024 x). Qed.

(* the first pass: into [0,360], exactly for values not in (-180,0) *)
Lemma w1_spec x : finite x -> -360 <= val x <= 360 ->
  finite (w1 x) /\ 0 <= val (w1 x) <= 360
  /\ (0 <= val x -> w1 x = x)
  /\ (val x < 0 -> val (w1 x) = rnd (val x + 360))
  /\ (val x <= -180 -> val (w1 x) = val x + 360).
Proof.
  intros F B. unfold w1. destruct (k_ok 0 ltac:(lia)) as (F0 & E0).
  destruct (k_ok 360 ltac:(lia)) as (F3 & E3).
  rewrite (lt_finite x (nofZ 0) F F0), E0. unfold Rltb. destruct (Rlt_dec (val x) 0) as [N|N].
  - pose proof big_1000.
    destruct (add_fin x (nofZ 360) F F3 ltac:(rewrite E3; apply abs_le; lra)) as (A & C).
    rewrite E3 in C. split; [exact A|]. split; [|split; [|split]].
    + rewrite C. split.
      * apply (rnd_ge_Z _ 0); [lia|lra].
      * apply (rnd_le_Z _ 360); [lia|lra].
    + intros; lra.
    + intros _. exact C.
    + intros L. rewrite C. replace (val x + 360) with (- (val (nopp x) - val (nofZ 360)))
        by (rewrite val_opp, E3; ring).
      rewrite rnd_opp. f_equal. apply sterbenz_rnd. rewrite val_opp, E3. lra.
  - split; [exact F|]. repeat split; try lra.
Qed.

Lemma w2_spec x : finite x -> 0 <= val x <= 360 ->
  finite (w2 x) /\ 40 < val (w2 x) <= 400
  /\ (val x <= 40 -> val (w2 x) = rnd (360 + val x) /\ 360 <= val (w2 x))
  /\ (40 < val x -> w2 x = x).
Proof.
  intros F B. unfold w2. destruct (k_ok 40 ltac:(lia)) as (F0 & E0).
  destruct (k_ok 360 ltac:(lia)) as (F3 & E3).
  rewrite (le_finite x (nofZ 40) F F0), E0. unfold Rleb. destruct (Rle_dec (val x) 40) as [N|N].
  - pose proof big_1000.
    destruct (add_fin (nofZ 360) x F3 F ltac:(rewrite E3; apply abs_le; lra)) as (A & C).
    rewrite E3 in C.
    assert (360 <= val (nadd (nofZ 360) x)).
    { rewrite C. apply (rnd_ge_Z _ 360); [lia|lra]. }
    assert (val (nadd (nofZ 360) x) <= 400).
    { rewrite C. apply (rnd_le_Z _ 400); [lia|lra]. }
    repeat split; try assumption; try lra.
  - split; [exact F|]. repeat split; try lra.
Qed.

Lemma rnd_512 r : Rabs r <= 512 -> Rabs (rnd r - r) <= half_ulp.
Proof. intros L. apply (rnd_err r 9); [lia|]. now rewrite pow9. Qed.

Lemma half_ulp_pos : 0 < half_ulp. Proof. apply bpow_gt_0. Qed.

Lemma zero_dist r : Rabs (r - r) <= half_ulp.
Proof. replace (r - r) with 0 by ring. rewrite Rabs_R0. left. apply half_ulp_pos. Qed.

Lemma w1_near x : finite x -> -360 <= val x <= 360 ->
  exists k : Z, Rabs (val (w1 x) - (val x + 360 * IZR k)) <= half_ulp.
Proof.
  intros F B. destruct (w1_spec x F B) as (_ & _ & P & N & _).
  destruct (Rle_lt_dec 0 (val x)) as [L|L].
  - exists 0%Z. rewrite (P L). replace (val x + 360 * 0) with (val x) by ring. apply zero_dist.
  - exists 1%Z. rewrite (N L). replace (val x + 360 * 1) with (val x + 360) by ring.
    apply rnd_512. apply abs_le. lra.
Qed.

Lemma rnd_ge_40 x : finite x -> -360 <= val x < 0 -> val (w1 x) <= 40 -> val x <= -180.
Proof.
  intros F B L. destruct (w1_spec x F ltac:(lra)) as (_ & _ & _ & N & _).
  rewrite (N ltac:(lra)) in L. destruct (Rle_lt_dec (val x) (-180)) as [Q|Q]; [exact Q|].
  exfalso. assert (rnd 180 <= rnd (val x + 360)) by (apply rnd_le; lra).
  rewrite (rnd_IZR 180) in H by lia. lra.
Qed.

Lemma w2_near x : finite x -> -360 <= val x <= 360 ->
  exists k : Z, Rabs (val (w2 (w1 x)) - (val x + 360 * IZR k)) <= half_ulp.
Proof.
  intros F B. destruct (w1_spec x F B) as (F1 & B1 & P & N & S).
  destruct (w2_spec (w1 x) F1 B1) as (_ & _ & A & C).
  destruct (Rle_lt_dec (val (w1 x)) 40) as [L|L].
  - destruct (A L) as (E & _). destruct (Rle_lt_dec 0 (val x)) as [Q|Q].
    + exists 1%Z. rewrite E, (P Q). rewrite (P Q) in L. replace (val x + 360 * 1) with (360 + val x) by ring.
      apply rnd_512. apply abs_le. lra.
    + exists 2%Z. rewrite E. rewrite (S (rnd_ge_40 x F ltac:(lra) L)).
      rewrite (S (rnd_ge_40 x F ltac:(lra) L)) in L.
      replace (val x + 360 * 2) with (360 + (val x + 360)) by ring.
      apply rnd_512. apply abs_le. lra.
  - rewrite (C L). now apply w1_near.
Qed.

Lemma seamed_spec l : Forall finite l ->
  (seamed l = true <-> exists x, In x l /\ 320 <= val x).
Proof.
  intros F. unfold seamed. rewrite existsb_exists. destruct (k_ok 320 ltac:(lia)) as (F3 & E3).
  rewrite Forall_forall in F.
  split; intros (x & I & H); exists x; (split; [exact I|]); specialize (F x I).
  - rewrite (le_finite _ _ F3 F), E3 in H. now apply Rleb_true in H.
  - rewrite (le_finite _ _ F3 F), E3. now apply Rleb_true.
Qed.

Lemma w1_all l : Forall in360 l ->
  Forall (fun y => finite y /\ 0 <= val y <= 360) (map w1 l).
Proof.
  intros A. apply Forall_map. eapply Forall_impl; [|exact A]. intros x (F & B).
  destruct (w1_spec x F B) as (F1 & B1 & _). tauto.
Qed.

Lemma wrap_range_f64 l : Forall in360 l ->
  Forall (fun y => finite y /\ 0 <= val y <= 400) (wrap_longitude l).
Proof.
  intros A. rewrite wrap_f64. pose proof (w1_all l A) as W. destruct (seamed (map w1 l)).
  - apply Forall_map. eapply Forall_impl; [|exact W]. intros y (F & B).
    destruct (w2_spec y F B) as (F2 & B2 & _). split; [exact F2|lra].
  - eapply Forall_impl; [|exact W]. intros y (F & B). split; [exact F|lra].
Qed.

Lemma Forall2_map_r {A B} (P : A -> B -> Prop) (f : A -> B) l :
  Forall (fun x => P x (f x)) l -> Forall2 P l (map f l).
Proof. induction 1; constructor; auto. Qed.

Lemma wrap_near_f64 l : Forall in360 l ->
  Forall2 (fun x y => near_meridian (val x) (val y)) l (wrap_longitude l).
Proof.
  intros A. rewrite wrap_f64. destruct (seamed (map w1 l)).
  - rewrite map_map. apply Forall2_map_r. eapply Forall_impl; [|exact A]. intros x (F & B).
    now apply w2_near.
  - apply Forall2_map_r. eapply Forall_impl; [|exact A]. intros x (F & B). now apply w1_near.
Qed.

Lemma map_id_in {A} (f : A -> A) l : (forall x, In x l -> f x = x) -> map f l = l.
Proof.
  intros E. induction l as [|a l IH]; [reflexivity|]. cbn. rewrite E by now left. f_equal.
  apply IH. intros; apply E. now right.
Qed.

Lemma w1_fix y : finite y -> 0 <= val y -> w1 y = y.
Proof.
  intros F B. unfold w1. destruct (k_ok 0 ltac:(lia)) as (F0 & E0).
  rewrite (lt_finite y (nofZ 0) F F0), E0. unfold Rltb. destruct (Rlt_dec (val y) 0); [lra|reflexivity].
Qed.
Lemma w2_fix y : finite y -> 40 < val y -> w2 y = y.
Proof.
  intros F B. unfold w2. destruct (k_ok 40 ltac:(lia)) as (F0 & E0).
  rewrite (le_finite y (nofZ 40) F F0), E0. unfold Rleb. destruct (Rle_dec (val y) 40); [lra|reflexivity].
Qed.

Lemma wrap_seam_f64 l : Forall in360 l -> forall y z, In y (wrap_longitude l) ->
  In z (wrap_longitude l) -> ~ (320 <= val y /\ val z <= 40).
Proof.
  intros A y z Y Z (Hy & Hz). rewrite wrap_f64 in Y, Z. pose proof (w1_all l A) as W.
  assert (F : Forall finite (map w1 l)) by (eapply Forall_impl; [|exact W]; intros ? (? & ?); assumption).
  destruct (seamed (map w1 l)) eqn:S.
  - apply in_map_iff in Z. destruct Z as (x & <- & I). rewrite Forall_forall in W.
    destruct (W x I) as (Fx & Bx). destruct (w2_spec x Fx Bx) as (_ & B2 & _). lra.
  - assert (T : seamed (map w1 l) = true) by (apply seamed_spec; [exact F|exists y; tauto]).
    congruence.
Qed.

Lemma wrap_idem_f64 l : Forall in360 l -> wrap_longitude (wrap_longitude l) = wrap_longitude l.
Proof.
  intros A. pose proof (wrap_range_f64 l A) as W. pose proof (wrap_seam_f64 l A) as N.
  set (m := wrap_longitude l) in *. rewrite wrap_f64.
  assert (E : map w1 m = m).
  { apply map_id_in. intros y I. rewrite Forall_forall in W. destruct (W y I) as (F & B).
    apply w1_fix; [exact F|lra]. }
  rewrite E. destruct (seamed m) eqn:S; [|reflexivity].
  assert (F : Forall finite m) by (eapply Forall_impl; [|exact W]; intros ? (? & ?); assumption).
  apply (seamed_spec m F) in S. destruct S as (y & Y & Hy).
  apply map_id_in. intros z Z. rewrite Forall_forall in F. apply w2_fix; [now apply F|].
  specialize (N y z Y Z). destruct (Rlt_le_dec 40 (val z)); [assumption|tauto].
Qed.
