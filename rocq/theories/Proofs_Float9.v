(* nearest_neighbour in double precision, and inputs at which rounding matters *)
From Coq Require Import ZArith List Bool Reals Lra Lia.
From Flocq Require Import Core.Core IEEE754.BinarySingleNaN.
From Verif Require Import Num Np NumFacts NpFacts Float Spec_Float Utilities Spec_Utilities Finders Spec_Finders Stats
  Proofs_Besthist Proofs_Boxes
  Proofs_Float1 Proofs_Float2 Proofs_Float3 Proofs_Float5 Proofs_Float6 Proofs_Float7 Proofs_Float8.
Import ListNotations.
Local Open Scope R_scope.

(* ---- nearest_neighbour ---- *)
Lemma argmin_near (xs : list f64) (x : f64) : xs <> [] -> finite x ->
  Forall (fun a => finite a /\ Rabs (val a - val x) <= 512) xs ->
  let i := argmin (map (fun a => nabs (nsub a x)) xs) in
  (i < length xs)%nat
  /\ forall k, (k < length xs)%nat ->
      Rabs (val (nth i xs nnan) - val x) <= Rabs (val (nth k xs nnan) - val x) + 2 * half_ulp.
Proof.
  intros N F A i. set (d := map (fun a => nabs (nsub a x)) xs) in *.
  assert (D : forall a, In a xs -> finite (nabs (nsub a x))
     /\ Rabs (val (nabs (nsub a x)) - Rabs (val a - val x)) <= half_ulp).
  { intros a I. rewrite Forall_forall in A. destruct (A a I) as (Fa & B). pose proof big_1000.
    destruct (sub_fin a x Fa F ltac:(lra)) as (Fs & Es). split; [now apply fin_abs|].
    rewrite val_abs, Es. eapply Rle_trans; [apply Rabs_triang_inv2|]. now apply rnd_512. }
  assert (Fd : Forall finite d).
  { unfold d. apply Forall_map. apply Forall_forall. intros a I. apply (D a I). }
  assert (Nd : map val d <> []) by (unfold d; destruct xs; [congruence|discriminate]).
  destruct (argmin_fin (map val d) Nd) as (j & E & Hj & M & _).
  assert (Ei : i = j) by (unfold i; now rewrite <- argmin_real, map_real_fin by exact Fd).
  rewrite Ei. clear i Ei E. unfold d in Hj. rewrite !map_length in Hj. split; [exact Hj|].
  intros k Hk. specialize (M k). unfold d in M. rewrite !map_length in M. specialize (M Hk).
  rewrite map_map in M. rewrite !(nth_map (fun a => val (nabs (nsub a x))) xs _ 0 nnan) in M by assumption.
  destruct (D _ (nth_In xs nnan Hj)) as (_ & Dj). destruct (D _ (nth_In xs nnan Hk)) as (_ & Dk).
  apply Rabs_le_inv in Dj. apply Rabs_le_inv in Dk. lra.
Qed.

Lemma nearest_f64 {A} (xs ys : list f64) (table : nat -> nat -> A) (x y : f64) : xs <> [] -> ys <> [] ->
  finite x -> finite y ->
  Forall (fun a => finite a /\ Rabs (val a - val x) <= 512) xs ->
  Forall (fun a => finite a /\ Rabs (val a - val y) <= 512) ys ->
  exists i j, nearest_neighbour xs ys table x y = table j i
    /\ (i < length xs)%nat /\ (j < length ys)%nat
    /\ (forall k, (k < length xs)%nat ->
          Rabs (val (nth i xs nnan) - val x) <= Rabs (val (nth k xs nnan) - val x) + 2 * half_ulp)
    /\ (forall k, (k < length ys)%nat ->
          Rabs (val (nth j ys nnan) - val y) <= Rabs (val (nth k ys nnan) - val y) + 2 * half_ulp).
Proof.
  intros Nx Ny Fx Fy Ax Ay. destruct (argmin_near xs x Nx Fx Ax) as (I1 & I2).
  destruct (argmin_near ys y Ny Fy Ay) as (J1 & J2).
  eexists. eexists. split; [reflexivity|]. auto.
Qed.

(* ---- values of concrete doubles ---- *)
Lemma val_of (x : f64) s m e : B2SF x = SpecFloat.S754_finite s m e -> val x = IZR (cond_Zopp s (Zpos m)) * bpow radix2 e.
Proof. destruct x as [b|b| |b m' e' B]; try discriminate. cbn [B2SF]. intros [= -> -> ->]. reflexivity. Qed.

(* -0.1 is given the longitude 359.9 rounded, which is not on the same meridian *)
Lemma wrap_inexact : exists x y : f64, in360 x /\ wrap_longitude [x] = [y] /\ ~ same_meridian (val x) (val y).
Proof.
  exists (nq (-1) 10), (nadd (nq (-1) 10) (nofZ 360)).
  assert (V : val (nq (-1) 10) = - 3602879701896397/36028797018963968).
  { erewrite val_of by (vm_compute; reflexivity). cbn. lra. }
  assert (W : val (nadd (nq (-1) 10) (nofZ 360)) = 3165713878692659/8796093022208).
  { erewrite val_of by (vm_compute; reflexivity). cbn. lra. }
  split; [split; [reflexivity|rewrite V; lra]|]. split; [reflexivity|].
  rewrite V, W. intros (k & E).
  assert (0 < IZR k < 2) by lra. destruct H as (H1 & H2). apply lt_IZR in H1, H2.
  replace k with 1%Z in E by lia. lra.
Qed.

(* 39.99: the columns 10 and 20 degrees to the west are one and the same *)
Lemma boxes_column : box_numbers (nq 3999 100 : f64) (nofZ (-45))
  = [68; 86; 50; 104; 50; 67; 85; 49; 103; 49; 69; 87; 51; 105; 51; 66; 84; 48; 102; 48; 70; 88; 52; 106; 52]%nat.
Proof. vm_compute. reflexivity. Qed.

Lemma boxes_column_f64 : exists x y : f64, finite x /\ finite y
  /\ 0 <= val x < 360 /\ -7001/100 <= val y <= 6999/100
  /\ forall tbl : list (list f64), length tbl = 648%nat ->
     exists ns, find_25boxes x y tbl = Ok (map (fun n => nth (n - 1) tbl []) ns)
       /\ length ns = 25%nat /\ (length (nodup Nat.eq_dec ns) = 20)%nat
       /\ forall n, box_covers n (val x - 20) (val y) -> ~ In n ns.
Proof.
  exists (nq 3999 100), (nofZ (-45)).
  assert (V : val (nq 3999 100 : f64) = 5628092159329567/140737488355328).
  { erewrite val_of by (vm_compute; reflexivity). cbn. lra. }
  assert (W : val (nofZ (-45)) = -45) by (apply k_ok; lia).
  split; [reflexivity|]. split; [reflexivity|]. rewrite V, W. split; [lra|]. split; [lra|].
  intros tbl L. exists (box_numbers (nq 3999 100 : f64) (nofZ (-45))).
  split; [|rewrite boxes_column; split; [reflexivity|split; [reflexivity|]]].
  - apply boxes_ok; [reflexivity|reflexivity|]. intros n Hn. apply box_numbers_range in Hn. lia.
  - intros n (_ & (k & K) & _) I.
    assert (B : (20 <= box_lon n <= 50)%Z).
    { clear K. revert n I. apply Forall_forall. repeat constructor; vm_compute; discriminate. }
    destruct B as (B1 & B2). apply IZR_le in B1, B2.
    assert (-1 < IZR k < 1) by lra. destruct H as (H1 & H2). apply lt_IZR in H1, H2.
    replace k with 0%Z in K by lia. lra.
Qed.

(* seven equal salinities 34.05 have a variance that is not zero *)
Lemma variance_inexact : exists s : f64, finite s
  /\ exists v, signal_variance (repeat s 7) = Ok v /\ 0 < val v.
Proof.
  exists (nq 3405 100). split; [reflexivity|].
  exists (var_ddof 0 (repeat (nq 3405 100 : f64) 7)). split; [reflexivity|].
  erewrite val_of by (vm_compute; reflexivity). apply Rmult_lt_0_compat; [apply IZR_lt; reflexivity|apply bpow_gt_0].
Qed.

(* ---- an exponential between 0 and 1, for examples: 1 / (1 - x) ---- *)
Definition demo_exp : NumT f64 := {| nexp := fun x => ndiv (nofZ 1) (nadd (nofZ 1) (nopp x));
  nlog := fun x => x; nsin := fun x => x; npi := nofZ 3 |}.

Lemma one_over (u : f64) : nneg u -> (finite u -> 1 <= val u) -> finite (ndiv (nofZ 1) u) /\ 0 <= val (ndiv (nofZ 1) u) <= 1.
Proof.
  intros U G. apply nonneg_cases in U. destruct U as [(F & _)| ->].
  - specialize (G F). destruct (k_ok 1 ltac:(lia)) as (F1 & E1).
    assert (B : 0 <= 1 / val u <= 1).
    { split; [apply Rmult_le_pos; [lra|left; apply Rinv_0_lt_compat; lra]|].
      apply Rmult_le_reg_r with (val u); [lra|]. unfold Rdiv. rewrite Rmult_assoc, Rinv_l by lra. lra. }
    pose proof big_1000.
    destruct (div_fin (nofZ 1) u F1 ltac:(lra)) as (Fd & Ed).
    { rewrite E1. apply abs_le. lra. }
    split; [exact Fd|]. rewrite Ed, E1. split; [apply (rnd_ge_Z _ 0)|apply (rnd_le_Z _ 1)]; try lia; lra.
  - cbn. split; [reflexivity|]. unfold val. cbn. lra.
Qed.

Lemma demo_exp_ok : exp_ok demo_exp.
Proof.
  split; [|unfold nexp, demo_exp; erewrite val_of by (vm_compute; reflexivity); cbn; lra].
  intros t T. cbn [nexp demo_exp].
  assert (E : nopp (nopp t) = t) by (destruct t as [[]|[]| |[] ? ? ?]; reflexivity). rewrite E.
  destruct (k_ok 1 ltac:(lia)) as (F1 & E1).
  apply one_over; [apply add_nonneg; [reflexivity|now apply nonneg_cases]|]. intros F.
  destruct T as [(Ft & Lt)| ->]; [|discriminate].
  pose proof (Bplus_correct 53 1024 _ _ mode_NE (nofZ 1) t F1 Ft) as C. fold (val (nofZ 1)) (val t) in C.
  fold (rnd (val (nofZ 1) + val t)) in C. destruct Rlt_bool.
  - destruct C as (C & _). assert (C' : val (nadd (nofZ 1) t) = rnd (val (nofZ 1) + val t)) by exact C.
    rewrite C', E1. apply (rnd_ge_Z _ 1); [lia|lra].
  - destruct C as (C & _). rewrite overflow_NE in C. apply SF_inf in C.
    assert (X : is_finite (Bplus mode_NE (nofZ 1) t) = true) by exact F. rewrite C in X. discriminate.
Qed.

Lemma covar_bounds (E : NumT f64) (p1 p2 : list (point f64)) la lo age phi m : exp_ok E ->
  good_scale la -> good_scale lo -> good_scale age -> Forall good_point p1 -> Forall good_point p2 ->
  covar_xyt_pv p1 p2 la lo age phi 0 = Ok m ->
  forall i j, (i < length p1)%nat -> (j < length p2)%nat ->
  finite (m i j) /\ 0 <= val (m i j) <= 1 /\ (nth i p1 dpoint = nth j p2 dpoint -> val (m i j) = 1).
Proof.
  intros (X1 & X2) Sla Slo Sage G1 G2 Em i j Hi Hj.
  destruct (covar_range p1 p2 la lo age phi m Sla Slo Sage G1 G2 Em i j Hi Hj) as (t & Nt & Et & Zt).
  rewrite Et. destruct (X1 t Nt) as (A & B). split; [exact A|]. split; [exact B|].
  intros Eq. rewrite (Zt Eq). exact X2.
Qed.
