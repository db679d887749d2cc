(* A station of two samples in double precision, and a pressure outside the two it lies between *)
From Coq Require Import ZArith List Bool Reals Lra Lia.
From Flocq Require Import Core.Core IEEE754.BinarySingleNaN.
From Verif Require Import Num Np NumFacts NpFacts Wrangling Spec_Finders Spec_Float Spec_Interp Spec_FloatInterp
  Proofs_Float1 Proofs_Float2 Proofs_Float3 Proofs_Float5 Proofs_FloatInterp2 Proofs_FloatInterp3 Float.
Import ListNotations.
Local Open Scope R_scope.

Definition two (a b : f64) : array2 f64 := mkArray2 f64 2 1 (fun i _ => match i with O => a | _ => b end).
Definition two_sal := two (nq 351 10) (nq 354 10).
Definition two_theta := two (nq 101 10) (nq 83 10).
Definition two_pres := two (nq 518 10) (nq 2416 10).
(* a level between the two samples, one at the temperature of the second, one without salinity *)
Definition two_float : list (f64 * f64 * f64) :=
  [(nofZ 35, nq 96 10, nofZ 100); (nofZ 35, nq 83 10, nofZ 300); (nnan, nq 96 10, nofZ 100)].

Lemma two_run : match interp_climatology two_sal two_theta two_pres two_float with
  | Ok [[(s1, p1)]; [(s2, p2)]; [(s3, p3)]] =>
      neqb s2 (nq 354 10) && nltb (nq 2416 10) p2 && nisnan s3 && nisnan p3
      && nltb (nq 351 10) s1 && nltb s1 (nq 354 10) && nltb (nq 1045 10) p1 && nltb p1 (nq 1046 10)
  | _ => false end = true.
Proof. vm_compute. reflexivity. Qed.

Lemma bounded_abs (x : f64) z : (Z.abs z < 2 ^ 53)%Z -> finite x -> nleb (nabs x) (nofZ z) = true -> Rabs (val x) <= IZR z.
Proof.
  intros Hz F H. destruct (ofZ_fin z Hz) as (Fz & Ez). rewrite le_finite in H; [|now apply fin_abs|exact Fz].
  rewrite Ez, val_abs in H. now apply Rleb_true in H.
Qed.
Lemma above_abs (x : f64) : finite x -> nleb (nofZ 1) (nabs x) = true -> bpow radix2 (-400) <= Rabs (val x).
Proof.
  intros F H. destruct (ofZ_fin 1 ltac:(lia)) as (Fz & Ez). rewrite le_finite in H; [|exact Fz|now apply fin_abs].
  rewrite Ez, val_abs in H. apply Rleb_true in H. apply Rle_trans with (2 := H). change 1 with (bpow radix2 0). apply bpow_le. lia.
Qed.
Definition sea_check (q : f64 * f64 * f64) : bool :=
  let '(s, t, p) := q in finite3 q && nleb (nabs s) (nofZ 64) && nleb (nabs t) (nofZ 64) && nleb (nabs p) (nofZ 16384) && nleb (nofZ 1) (nabs t).
Lemma sea_checked q : sea_check q = true -> sea_sample (val3 q).
Proof.
  destruct q as [[s t] p]. unfold sea_check. rewrite !andb_true_iff. intros ((((F & A) & B) & D) & E).
  destruct (finite3_all _ F) as (Fs & Ft & Fp). cbn [fst snd] in *.
  unfold sea_sample, val3, p_sal, p_theta, p_pres. cbn [fst snd].
  split; [apply (bounded_abs s 64); auto; lia|]. split; [apply (bounded_abs t 64); auto; lia|].
  split; [apply (bounded_abs p 16384); auto; lia|]. right. now apply above_abs.
Qed.

Lemma two_shape a b c d : same_shape64 (two a b) (two c d). Proof. split; reflexivity. Qed.
Lemma two_grid : sea_grid two_sal two_theta two_pres.
Proof.
  intros j q Hj Hq. rewrite lev_samples in Hq by apply two_shape. apply in_map_iff in Hq. destruct Hq as (x & <- & Hx).
  apply sea_checked. assert (j = 0)%nat as -> by (cbn in Hj; lia).
  assert (C : forallb sea_check (station_levels two_sal two_theta two_pres 0) = true) by (vm_compute; reflexivity).
  rewrite forallb_forall in C. now apply C.
Qed.
Lemma two_levels : sea_levels two_float.
Proof.
  intros q a Hq Ha. rewrite level_real in Ha. destruct (finite3 q) eqn:F; [|discriminate].
  assert (a = val3 q) as -> by congruence. apply sea_checked.
  assert (C : forallb (fun q => negb (finite3 q) || sea_check q) two_float = true) by (vm_compute; reflexivity).
  rewrite forallb_forall in C. specialize (C q Hq). rewrite F in C. exact C.
Qed.

(* the pressures of the station, and the one interpolated at its second sample *)
Lemma pressure_outside : exists o,
  interp_climatology two_sal two_theta two_pres [(nofZ 35, nq 83 10, nofZ 300)] = Ok [[o]]
  /\ finite (snd o) /\ forall q, In q (samples64 two_sal two_theta two_pres 0) -> p_pres q < val (snd o).
Proof.
  assert (K : match interp_climatology two_sal two_theta two_pres [(nofZ 35, nq 83 10, nofZ 300)] with
    | Ok [[o]] => nisfin (snd o) && forallb (fun q : f64 * f64 * f64 => nltb (snd q) (snd o)) (station_levels two_sal two_theta two_pres 0) | _ => false end = true)
    by (vm_compute; reflexivity).
  destruct (interp_climatology two_sal two_theta two_pres [(nofZ 35, nq 83 10, nofZ 300)]) as [r|e]; [|discriminate K].
  destruct r as [|[|o [|]] [|]]; try discriminate K. exists o. split; [reflexivity|].
  apply andb_true_iff in K. destruct K as (F & K). split; [exact F|]. intros q Hq.
  rewrite lev_samples in Hq by apply two_shape. apply in_map_iff in Hq. destruct Hq as (x & <- & Hx).
  rewrite forallb_forall in K. specialize (K x Hx).
  assert (Fx : finite3 x = true) by (apply filter_In in Hx; apply Hx). destruct (finite3_all x Fx) as (_ & _ & Fp).
  rewrite lt_finite in K by auto. now apply Rltb_true in K.
Qed.
Lemma pressure_outside_full : exists gs gt gp q o, sea_grid gs gt gp /\ sea_levels [q]
  /\ interp_climatology gs gt gp [q] = Ok [[o]] /\ finite (snd o)
  /\ forall a, In a (samples64 gs gt gp 0) -> p_pres a < val (snd o).
Proof.
  destruct pressure_outside as (o & E & F & P).
  exists two_sal, two_theta, two_pres, (nofZ 35, nq 83 10, nofZ 300), o.
  split; [exact two_grid|]. split; [|auto]. intros q a [<-|[]] Ha. apply (two_levels (nofZ 35, nq 83 10, nofZ 300)); auto.
  right. left. reflexivity.
Qed.
