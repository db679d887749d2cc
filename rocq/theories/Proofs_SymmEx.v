From Coq Require Import ZArith List Bool Reals Lra Lia Permutation.
From Verif Require Import Num Np NumFacts NpFacts Stats Spec_Utilities Spec_Finders Spec_Stats Spec_FitCond Spec_Map
  Helper Spec_Helper MapProfile Spec_MapLevel Spec_Symm Proofs_Besthist Proofs_Stats1 Proofs_MapLevel Proofs_Symm Proofs_Symm2 Proofs_MappingEx Proofs_FC11.
Import ListNotations.
Local Open Scope R_scope.

(* six casts on a meridian, one degree apart, going north or south *)
Definition line (s : nat -> R) (o d : R) : list (hpoint R) := map (fun i => mkHpoint (s i) 1000 10 (o + d * INR i) 2010 4000) (seq 0 6).
Lemma line_nearest s o d i : d ^ 2 = 1 -> (i < 6)%nat -> nearest (map observed (line s o d)) i (match i with O => 1%nat | S k => k end).
Proof.
  intros Hd Hi.
  assert (P : forall k, (k < 6)%nat -> nth k (map observed (line s o d)) dstation = mkStation (Some (s k)) (o + d * INR k) 10).
  { intros k Hk. do 6 (destruct k as [|k]; [reflexivity|]). lia. }
  assert (HJ : (match i with O => 1 | S k => k end < 6)%nat) by (destruct i; lia).
  assert (D0 : d <> 0) by (intros ->; lra).
  assert (HD : forall a b, (o + d * a - (o + d * b)) ^ 2 + (10 - 10) ^ 2 = (a - b) ^ 2) by (intros a b; transitivity (d ^ 2 * (a - b) ^ 2); [ring|rewrite Hd; ring]).
  split; [exact HJ|]. rewrite (P i Hi), (P _ HJ). unfold same_place, dist2. cbn [st_lat st_long]. rewrite HD.
  assert (HL : forall a b, (a < b)%nat -> INR a + 1 <= INR b) by (intros a b HH; rewrite <- S_INR; apply le_INR; lia).
  assert (HE : forall a b, o + d * INR a = o + d * INR b -> a = b) by (intros a b E; apply INR_eq; apply (Rmult_eq_reg_l d); lra).
  split; [intros [E _]; apply HE in E; destruct i; lia|]. split.
  - intros k Hk. rewrite (P k Hk). cbn [st_lat st_long]. rewrite HD. intros NE.
    assert (NE' : i <> k) by (intros ->; apply NE; split; reflexivity).
    assert (1 <= (INR i - INR k) ^ 2) by (destruct (Nat.lt_trichotomy i k) as [C|[C|C]]; [specialize (HL _ _ C); nra|lia|specialize (HL _ _ C); nra]).
    destruct i; [cbn [INR] in *; nra|]. rewrite S_INR in *. nra.
  - intros k Hk. assert (Hk6 : (k < 6)%nat) by lia. rewrite (P k Hk6). cbn [st_lat st_long]. rewrite HD. intros NE.
    destruct i; [assert (k = 0)%nat by lia; subst; exfalso; apply NE; split; reflexivity|].
    specialize (HL _ _ Hk). rewrite S_INR. nra.
Qed.

(* one of them fresher than the others *)
Definition northward : list (hpoint R) := line (fun i => match i with O => 35 | _ => 36 end) 0 1.
Definition southward : list (hpoint R) := line (fun i => match i with 5%nat => 35 | _ => 36 end) 5 (-1).
Lemma turned : Permutation northward southward.
Proof.
  replace southward with (rev northward); [apply Permutation_rev|]. unfold northward, southward, line. cbn [seq map rev app INR].
  repeat (f_equal; try lra).
Qed.
Lemma five_of_six l : Permutation (map hp_sal l) [35; 36; 36; 36; 36; 36] -> kept l = l.
Proof.
  intros P. unfold kept. cbv zeta. rewrite (rsd_perm _ _ P). replace (rmean (map hp_sal l)) with (rmean [35; 36; 36; 36; 36; 36]) by (symmetry; exact (mean_perm _ _ P)).
  assert (M : rmean [35; 36; 36; 36; 36; 36] = 215 / 6) by (unfold rmean; cbn; lra). rewrite M.
  assert (S : 3 / 10 <= rsd [35; 36; 36; 36; 36; 36]).
  { unfold rsd. rewrite M. replace (3 / 10) with (sqrt (Rsqr (3 / 10))) by (apply sqrt_Rsqr; lra). apply sqrt_le_1_alt. unfold Rsqr. cbn [map fold_right length INR]. lra. }
  assert (F : forall q, In q l -> hp_sal q = 35 \/ hp_sal q = 36).
  { intros q Hq. apply (in_map hp_sal) in Hq. apply (Permutation_in _ P) in Hq. cbn in Hq. intuition. }
  clear P. induction l as [|q l IH]; [reflexivity|]. cbn [filter]. rewrite IH by (intros; apply F; now right).
  destruct (Rle_dec _ _) as [_|C]; [reflexivity|]. exfalso. apply C.
  destruct (F q (or_introl eq_refl)) as [-> | ->]; [rewrite Rabs_left by lra|rewrite Rabs_right by lra]; lra.
Qed.
Lemma north_kept : kept northward = northward.
Proof. apply five_of_six. apply Permutation_refl. Qed.
Lemma south_kept : kept southward = southward.
Proof. apply five_of_six. apply (Permutation_map hp_sal (Permutation_sym turned)). Qed.
Lemma north_noise : noise_estimate northward (1 / 6).
Proof.
  exists (fun i => match i with O => 1%nat | S k => k end). split.
  - intros i Hi. apply line_nearest; [lra|exact Hi].
  - unfold mean_of, northward, line. cbn [length seq map nth hp_sal Nat.add]. cbn [fold_right INR length map]. field.
Qed.
Lemma south_noise : noise_estimate southward (1 / 12).
Proof.
  exists (fun i => match i with O => 1%nat | S k => k end). split.
  - intros i Hi. apply line_nearest; [lra|exact Hi].
  - unfold mean_of, southward, line. cbn [length seq map nth hp_sal Nat.add]. cbn [fold_right INR length map]. field.
Qed.
(* the order of the casts changes the noise *)
Lemma order_matters inv cfg large small g t : inv_ok inv -> config_scales cfg large small -> scales_nonzero large -> scales_nonzero small ->
  has_depth large [g] ->
  exists o o', map_level inv cfg (fpoint g) t (hist_of (map known northward)) = Ok (Some o) /\
    map_level inv cfg (fpoint g) t (hist_of (map known southward)) = Ok (Some o') /\ lo_noise o = Fin (1 / 6) /\ lo_noise o' = Fin (1 / 12).
Proof.
  intros Hinv HC NL NS Hg.
  assert (D : forall l, (forall q, In q l -> hp_z q = 4000) -> has_depth large (g :: map place l)).
  { intros l Hl Ev p [<-|Hp]; [apply (Hg Ev); now left|]. apply in_map_iff in Hp as (q & <- & Hq). cbn. rewrite (Hl q Hq). lra. }
  destruct (level_mapped inv cfg large small g t northward (1 / 6) Hinv HC NL NS) as (v & e & _ & E).
  - apply D. intros q Hq. unfold northward, line in Hq. apply in_map_iff in Hq as (i & <- & _). reflexivity.
  - cbn; lia.
  - rewrite north_kept. exact north_noise.
  - lra.
  - destruct (level_mapped inv cfg large small g t southward (1 / 12) Hinv HC NL NS) as (v' & e' & _ & E').
    + apply D. intros q Hq. unfold southward, line in Hq. apply in_map_iff in Hq as (i & <- & _). reflexivity.
    + cbn; lia.
    + rewrite south_kept. exact south_noise.
    + lra.
    + eexists _, _. split; [exact E|]. split; [exact E'|]. split; reflexivity.
Qed.

(* the neighbours of each of the six casts of C86 agree *)
Lemma six_untied : untied six.
Proof.
  assert (G : forall i c, (i < 6)%nat -> closest six (nth i six dhpoint) c -> hp_sal c = if Nat.even i then 36 else 35).
  { intros i c Hi (Hc & ND & AL).
    assert (P : forall k, (k < 6)%nat -> nth k six dhpoint = mkHpoint (if Nat.even k then 35 else 36) 1000 10 (INR k) 2010 4000).
    { intros k Hk. do 6 (destruct k as [|k]; [reflexivity|]). lia. }
    destruct (In_nth _ _ dhpoint Hc) as (k & Hk & <-). change (length six) with 6%nat in Hk.
    rewrite (P k Hk) in *. rewrite (P i Hi) in *. cbn [hp_sal].
    assert (HJ : (match i with O => 1 | S k => k end < 6)%nat) by (destruct i; lia).
    specialize (AL (nth (match i with O => 1 | S k => k end) six dhpoint) (nth_In six dhpoint HJ)). rewrite (P _ HJ) in AL.
    unfold same_place, dist2 in *. cbn [observed hp_lat hp_long st_lat st_long] in *.
    assert (A1 : (INR i - INR k) ^ 2 + (10 - 10) ^ 2 <= 1).
    { eapply Rle_trans; [apply AL|].
      - intros [E _]. apply INR_eq in E. destruct i; lia.
      - destruct i; [cbn [INR]; lra|]. rewrite S_INR. ring_simplify. lra. }
    assert (KI : i = S k \/ k = S i).
    { destruct (Nat.lt_trichotomy i k) as [C|[C|C]]; [right|exfalso; apply ND; subst; split; reflexivity|left].
      - destruct (Nat.eq_dec k (S i)) as [E|E]; [exact E|]. exfalso. assert (INR i + 2 <= INR k) by (replace 2 with (INR 2) by reflexivity; rewrite <- plus_INR; apply le_INR; lia). nra.
      - destruct (Nat.eq_dec i (S k)) as [E|E]; [exact E|]. exfalso. assert (INR k + 2 <= INR i) by (replace 2 with (INR 2) by reflexivity; rewrite <- plus_INR; apply le_INR; lia). nra. }
    clear - KI. destruct KI as [-> | ->]; rewrite Nat.even_succ, <- Nat.negb_even; [destruct (Nat.even k)|destruct (Nat.even i)]; reflexivity. }
  intros c p q Hc Hp Hq. destruct (In_nth _ _ dhpoint Hc) as (i & Hi & <-). change (length six) with 6%nat in Hi. rewrite (G i p Hi Hp), (G i q Hi Hq). reflexivity.
Qed.
