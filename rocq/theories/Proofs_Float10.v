(* find_besthist in double precision *)
From Coq Require Import ZArith List Bool Reals Lra Lia Permutation Sorted.
From Flocq Require Import Core.Core IEEE754.BinarySingleNaN.
From Verif Require Import Num Np NumFacts NpFacts Float Spec_Float Utilities Finders Spec_Finders
  Proofs_Besthist Proofs_Float1 Proofs_Float2 Proofs_Float3 Proofs_Float7 Proofs_Float8.
Import ListNotations.
Local Open Scope R_scope.

(* ---- the positions drawn ---- *)
Lemma dedup_real l : dedup (map real l) = map real (dedup l).
Proof.
  induction l as [|x l IH]; [reflexivity|]. destruct l as [|y l]; [reflexivity|].
  cbn [map dedup] in *. rewrite real_eq. destruct (neqb x y); [exact IH|]. cbn [map]. f_equal. exact IH.
Qed.

Lemma unique_positions n (zl : list Z) : (forall z, In z zl -> (0 <= z < Z.of_nat n)%Z) ->
  exists zs : list nat,
    np_sort (np_unique (map finZ zl)) = map (fun k => finZ (Z.of_nat k)) zs
    /\ StronglySorted lt zs /\ (forall k, In k zs -> (k < n)%nat)
    /\ (length zs <= length zl)%nat /\ (zl <> [] -> zs <> [])
    /\ (forall k, In k zs <-> In (Z.of_nat k) zl).
Proof.
  intros Hz. unfold np_unique. rewrite np_sort_finZ, dedup_finZ, np_sort_finZ.
  set (ws := zdedup (sort_by Z.ltb zl)).
  assert (Sw : StronglySorted Z.lt ws) by (apply zdedup_sorted, zsort_sorted).
  rewrite (zsort_id ws) by auto.
  assert (Hin : forall w, In w ws <-> In w zl).
  { intros w. unfold ws. rewrite zdedup_in. split; apply Permutation_in; [|apply Permutation_sym]; apply sort_by_perm. }
  assert (Hr : forall w, In w ws -> (0 <= w < Z.of_nat n)%Z) by (intros w Hw; apply Hz; now apply Hin).
  exists (map Z.to_nat ws). split; [|split; [|split; [|split; [|split]]]].
  - rewrite map_map. apply map_ext_in. intros w Hw. f_equal. rewrite Z2Nat.id; auto. apply Hr in Hw. lia.
  - clear Hin. induction Sw as [|w ws' Sw IH Hw]; [constructor|]. cbn [map]. constructor.
    + apply IH. intros x Hx. apply Hr. now right.
    + apply Forall_forall. intros k Hk. apply in_map_iff in Hk as (x & <- & Hx).
      rewrite Forall_forall in Hw. specialize (Hw x Hx).
      pose proof (Hr w (or_introl eq_refl)). pose proof (Hr x (or_intror Hx)). lia.
  - intros k Hk. apply in_map_iff in Hk as (w & <- & Hw). apply Hr in Hw. lia.
  - rewrite map_length. unfold ws. pose proof (zdedup_length (sort_by Z.ltb zl)).
    rewrite sort_by_length in H. lia.
  - intros Hne E. apply map_eq_nil in E. destruct zl as [|u us]; [congruence|].
    assert (Hi : In u ws) by (apply Hin; now left). rewrite E in Hi. destruct Hi.
  - intros k. rewrite in_map_iff. split.
    + intros (w & <- & Hw). pose proof (Hr w Hw). apply Hin in Hw. rewrite Z2Nat.id by lia. exact Hw.
    + intros Hk. exists (Z.of_nat k). split; [lia|]. now apply Hin.
Qed.

(* x stands for the position k among n *)
Definition position (n : nat) {T} `{Num T} (x : T) (k : nat) : Prop :=
  ntoZ x = Z.of_nat k /\ forall i, (i < n)%nat -> neqb (nofZ (Z.of_nat i)) x = Nat.eqb i k.

Definition small_count (n : nat) : Prop := (Z.of_nat n < 2 ^ 53)%Z.

Lemma round_fix0 rx r : round radix2 (FIX_exp 0) rx r = IZR (rx r).
Proof. unfold round, F2R, scaled_mantissa, cexp, FIX_exp. cbn. now rewrite !Rmult_1_r. Qed.

Lemma position_f64 n (x : f64) k : small_count n -> (k < n)%nat -> real x = finZ (Z.of_nat k) -> position n x k.
Proof.
  intros Hn Hk E. assert (F : finite x /\ val x = IZR (Z.of_nat k)).
  { unfold finZ in E. destruct x as [s|s| |s m e B]; cbn in E; try (destruct s; discriminate); try discriminate;
      (split; [reflexivity|]); injection E as E; exact E. }
  destruct F as (F & V). unfold small_count in Hn. split.
  - change (ntoZ x) with (Btrunc x). apply eq_IZR. rewrite (Btrunc_correct 53 1024 f64_emax x).
    fold (val x). rewrite V, round_fix0. now rewrite Ztrunc_IZR.
  - intros i Hi. destruct (ofZ_fin (Z.of_nat i) ltac:(lia)) as (Fi & Vi). rewrite (eq_finite _ _ Fi F), Vi, V.
    destruct (Nat.eqb_spec i k) as [->|N]; [now apply Reqb_true|]. apply Reqb_false. intros Q. apply N.
    apply eq_IZR in Q. lia.
Qed.

Lemma Rrint_Zle r z : r <= IZR z -> (ZnearestE r <= z)%Z.
Proof.
  intros L. destruct (Z_le_gt_dec (ZnearestE r) z) as [|G]; [assumption|exfalso].
  assert (IZR (z + 1) <= IZR (ZnearestE r)) by (apply IZR_le; lia). rewrite plus_IZR in H.
  pose proof (Znearest_half (fun x => negb (Z.even x)) r) as A. apply Rabs_le_inv in A. lra.
Qed.
Lemma Rrint_Zge r z : IZR z <= r -> (z <= ZnearestE r)%Z.
Proof.
  intros L. destruct (Z_le_gt_dec z (ZnearestE r)) as [|G]; [assumption|exfalso].
  assert (IZR (ZnearestE r) <= IZR (z - 1)) by (apply IZR_le; lia). rewrite minus_IZR in H.
  pose proof (Znearest_half (fun x => negb (Z.even x)) r) as A. apply Rabs_le_inv in A. lra.
Qed.

Lemma drawn_f64 n (u : f64) : (0 < n)%nat -> small_count n -> unit_draw u ->
  let x := nrint (nsub (nmul u (nofZ (Z.of_nat n))) (nofZ 1)) in
  exists z, (-1 <= z < Z.of_nat n)%Z /\ finite x /\ val x = IZR z.
Proof.
  intros Hn Hs (Fu & Bu) x. unfold small_count in Hs.
  destruct (ofZ_fin (Z.of_nat n) ltac:(lia)) as (Fn & Vn). destruct (k_ok 1 ltac:(lia)) as (F1 & V1).
  assert (BIG : IZR (2 ^ 53) <= big).
  { unfold big. rewrite <- (IZR_Zpower radix2) by lia. apply IZR_le. change (2 ^ 53 <= 2 ^ 1000)%Z.
    apply Z.pow_le_mono_r; lia. }
  assert (Nr : 1 <= IZR (Z.of_nat n) <= IZR (2 ^ 53)) by (split; apply IZR_le; lia).
  assert (M : 0 <= val u * IZR (Z.of_nat n) <= IZR (Z.of_nat n)) by (split; [apply Rmult_le_pos; lra|nra]).
  destruct (mul_fin u (nofZ (Z.of_nat n)) Fu Fn) as (Fm & Vm).
  { rewrite Vn. apply abs_le. lra. }
  rewrite Vn in Vm.
  assert (Bm : 0 <= val (nmul u (nofZ (Z.of_nat n))) <= IZR (Z.of_nat n)).
  { rewrite Vm. split; [apply (rnd_ge_Z _ 0)|apply (rnd_le_Z _ (Z.of_nat n))]; try lia; lra. }
  destruct (sub_fin _ (nofZ 1) Fm F1) as (Fq & Vq).
  { rewrite V1. apply abs_le. lra. }
  rewrite V1 in Vq.
  assert (Bq : -1 <= val (nsub (nmul u (nofZ (Z.of_nat n))) (nofZ 1)) <= IZR (Z.of_nat n - 1)).
  { rewrite Vq. rewrite minus_IZR. split; [apply (rnd_ge_Z _ (-1)); [lia|lra]|].
    rewrite <- minus_IZR. apply (rnd_le_Z _ (Z.of_nat n - 1)); [lia|]. rewrite minus_IZR. lra. }
  set (q := nsub (nmul u (nofZ (Z.of_nat n))) (nofZ 1)) in *.
  destruct (Bnearbyint_correct 53 1024 f64_emax mode_NE q) as (C1 & C2 & _).
  exists (ZnearestE (val q)). split; [|split].
  - split; [apply Rrint_Zge; apply Bq|]. pose proof (Rrint_Zle (val q) (Z.of_nat n - 1) (proj2 Bq)). lia.
  - unfold x. unfold finite. change (nrint q) with (Bnearbyint mode_NE q). now rewrite C2.
  - unfold x. change (val (nrint q)) with (B2R (Bnearbyint mode_NE q)). rewrite C1. fold (val q).
    rewrite round_fix0. reflexivity.
Qed.

Lemma index_rand_f64 n us : (0 < n)%nat -> small_count n -> Forall unit_draw us ->
  exists zs, Forall2 (position n) (index_rand n us) zs
    /\ StronglySorted lt zs /\ (forall k, In k zs -> (k < n)%nat)
    /\ (length zs <= length us)%nat /\ (us <> [] -> zs <> []).
Proof.
  intros Hn Hs Hu. unfold index_rand.
  assert (Z : exists zl, map real (map (fun x : f64 => if neqb x (nofZ (-1)) then nofZ 0 else x)
       (map (fun u => nrint (nsub (nmul u (nofZ (Z.of_nat n))) (nofZ 1))) us)) = map finZ zl
     /\ length zl = length us /\ forall z, In z zl -> (0 <= z < Z.of_nat n)%Z).
  { induction Hu as [|u us Du Hu IH]; [exists []; split; [reflexivity|split; [reflexivity|]]; intros ? []|].
    destruct IH as (zl & E & L & B). cbn [map].
    destruct (drawn_f64 n u Hn Hs Du) as (z & Bz & Fx & Vx).
    set (x := nrint (nsub (nmul u (nofZ (Z.of_nat n))) (nofZ 1))) in *.
    destruct (k_ok (-1) ltac:(lia)) as (Fm & Vm). rewrite (eq_finite x _ Fx Fm), Vx, Vm.
    destruct (Z.eq_dec z (-1)) as [->|N].
    - exists (0 :: zl)%Z. rewrite (proj2 (Reqb_true _ _)) by auto. split; [|split].
      + cbn [map]. rewrite <- E. reflexivity.
      + cbn. now rewrite L.
      + intros w [<-|I]; [lia|auto].
    - exists (z :: zl). rewrite (proj2 (Reqb_false _ _)) by (intros Q; apply eq_IZR in Q; lia). split; [|split].
      + cbn [map]. rewrite <- E. f_equal. rewrite real_fin, Vx by exact Fx. reflexivity.
      + cbn. now rewrite L.
      + intros w [<-|I]; [lia|auto]. }
  destruct Z as (zl & E & L & B). set (r := map (fun x : f64 => if neqb x (nofZ (-1)) then nofZ 0 else x) _) in *.
  destruct (unique_positions n zl B) as (zs & Q & Q1 & Q2 & Q3 & Q4 & _).
  exists zs. split; [|split; [exact Q1|split; [exact Q2|split; [lia|]]]].
  - rewrite <- E in Q. unfold np_unique in Q. rewrite np_sort_real, dedup_real, np_sort_real in Q.
    fold (np_unique r) in Q. clear -Q Q2 Hs. revert zs Q Q2.
    induction (np_sort (np_unique r)) as [|x l IH]; intros [|k zs] Q Q2; try discriminate; [constructor|].
    injection Q as Q Q'. constructor.
    + apply position_f64; auto. apply Q2. now left.
    + apply IH; auto. intros; apply Q2. now right.
  - intros N. apply Q4. intros ->. destruct us; [congruence|discriminate].
Qed.
