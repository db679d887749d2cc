(* Proofs for nearest_neighbour and find_25boxes *)
From Coq Require Import ZArith List Bool Reals Lra Lia.
From Flocq Require Import Core.Raux.
From Verif Require Import Num Np NumFacts NpFacts Finders Spec_Finders Proofs_Besthist.
Import ListNotations.
Local Open Scope R_scope.

(* ---- argmin ---- *)
Lemma argmin_from_fin (pre : list R) (b : nat) (m : R) (l : list R) :
  (b < length pre)%nat -> nth b pre 0 = m ->
  (forall k, (k < length pre)%nat -> m <= nth k pre 0) -> (forall k, (k < b)%nat -> m < nth k pre 0) ->
  exists i, argmin_from (length pre) b (Fin m) (map Fin l) = i /\ (i < length (pre ++ l))%nat
   /\ (forall k, (k < length (pre ++ l))%nat -> nth i (pre ++ l) 0 <= nth k (pre ++ l) 0)
   /\ (forall k, (k < i)%nat -> nth i (pre ++ l) 0 < nth k (pre ++ l) 0).
Proof.
  revert pre b m. induction l as [|x l IH]; intros pre b m Hb Em Hmin Hlt.
  - exists b. rewrite app_nil_r. cbn. repeat split; auto; rewrite Em; auto.
  - cbn [map argmin_from]. cbn [nisnan XR_Num nltb xltb orb].
    replace (pre ++ x :: l)%list with ((pre ++ [x]) ++ l)%list by (now rewrite <- app_assoc).
    replace (S (length pre)) with (length (pre ++ [x])) by (rewrite app_length; simpl; lia).
    assert (Hn : forall k, (k < length (pre ++ [x]))%nat ->
       ((k < length pre)%nat /\ nth k (pre ++ [x]) 0 = nth k pre 0) \/ (k = length pre /\ nth k (pre ++ [x]) 0 = x)).
    { intros k Hk. rewrite app_length in Hk. simpl in Hk. destruct (lt_dec k (length pre)).
      - left. split; auto. now rewrite app_nth1.
      - right. assert (k = length pre) by lia. subst. split; auto. rewrite app_nth2, Nat.sub_diag by lia. reflexivity. }
    assert (Lx : length (pre ++ [x]) = S (length pre)) by (rewrite app_length; simpl; lia).
    destruct (Rltb x m) eqn:E.
    + apply Rltb_true in E. apply IH.
      * lia.
      * now rewrite app_nth2, Nat.sub_diag by lia.
      * intros k Hk. destruct (Hn k Hk) as [[Hl ->]|[-> ->]]; [|lra]. specialize (Hmin k Hl). lra.
      * intros k Hk. rewrite app_nth1 by auto. specialize (Hmin k Hk). lra.
    + apply Rltb_false in E. apply IH.
      * lia.
      * now rewrite app_nth1.
      * intros k Hk. destruct (Hn k Hk) as [[Hl ->]|[-> ->]]; auto.
      * intros k Hk. rewrite app_nth1 by lia. auto.
Qed.

Lemma argmin_fin (l : list R) : l <> [] ->
  exists i, argmin (map Fin l) = i /\ (i < length l)%nat
   /\ (forall k, (k < length l)%nat -> nth i l 0 <= nth k l 0)
   /\ (forall k, (k < i)%nat -> nth i l 0 < nth k l 0).
Proof.
  destruct l as [|x l]; [congruence|intros _]. unfold argmin. cbn [map].
  apply (argmin_from_fin [x] 0 x l); simpl; auto.
  - intros k Hk. assert (k = 0)%nat by lia. subst. lra.
  - intros k Hk. lia.
Qed.

Lemma argmin_from_lt {T} `{Num T} (l : list T) i b m : (b < i)%nat -> (argmin_from i b m l < i + length l)%nat.
Proof.
  revert i b m. induction l as [|x l IH]; intros i b m Hb; cbn [argmin_from length]; [lia|].
  destruct (nisnan m); [lia|].
  destruct (nisnan x || nltb x m).
  - specialize (IH (S i) i x). lia.
  - specialize (IH (S i) b m). lia.
Qed.

Lemma argmin_lt {T} `{Num T} (l : list T) : l <> [] -> (argmin l < length l)%nat.
Proof.
  destruct l as [|x l]; [congruence|intros _]. unfold argmin.
  pose proof (argmin_from_lt l 1 0 x ltac:(lia)). simpl. lia.
Qed.

(* ---- C20 ---- *)
Lemma nearest_main {A} (xs ys : list R) (table : nat -> nat -> A) x y : xs <> [] -> ys <> [] ->
  exists i j, nearest_neighbour (map Fin xs) (map Fin ys) table (Fin x) (Fin y) = table j i
  /\ (i < length xs)%nat /\ (j < length ys)%nat
  /\ (forall k, (k < length xs)%nat -> Rabs (nth i xs 0 - x) <= Rabs (nth k xs 0 - x))
  /\ (forall k, (k < i)%nat -> Rabs (nth i xs 0 - x) < Rabs (nth k xs 0 - x))
  /\ (forall k, (k < length ys)%nat -> Rabs (nth j ys 0 - y) <= Rabs (nth k ys 0 - y))
  /\ (forall k, (k < j)%nat -> Rabs (nth j ys 0 - y) < Rabs (nth k ys 0 - y)).
Proof.
  intros Hx Hy. unfold nearest_neighbour.
  assert (E : forall l v, map (fun a => nabs (nsub a (Fin v))) (map Fin l) = map Fin (map (fun a => Rabs (a - v)) l)).
  { intros l v. rewrite !map_map. apply map_ext. intros a. reflexivity. }
  rewrite !E.
  destruct (argmin_fin (map (fun a => Rabs (a - x)) xs)) as (i & -> & Li & Mi & Fi).
  { intros C. apply map_eq_nil in C. auto. }
  destruct (argmin_fin (map (fun a => Rabs (a - y)) ys)) as (j & -> & Lj & Mj & Fj).
  { intros C. apply map_eq_nil in C. auto. }
  rewrite map_length in *. exists i, j. split; auto. split; auto. split; auto.
  assert (G : forall (l : list R) v k, (k < length l)%nat -> nth k (map (fun a => Rabs (a - v)) l) 0 = Rabs (nth k l 0 - v)).
  { intros l v k Hk. now rewrite (nth_map _ _ _ _ 0). }
  repeat split; intros k Hk.
  - specialize (Mi k Hk). rewrite !G in Mi by lia. exact Mi.
  - specialize (Fi k Hk). rewrite !G in Fi by lia. exact Fi.
  - specialize (Mj k Hk). rewrite !G in Mj by lia. exact Mj.
  - specialize (Fj k Hk). rewrite !G in Fj by lia. exact Fj.
Qed.

(* ---- the lookup axes ---- *)
Definition xaxis : list R := map (fun k => IZR (10 * Z.of_nat k - 5)) (seq 0 38).
Definition yaxis : list R := map (fun k => IZR (85 - 10 * Z.of_nat k)) (seq 0 18).
Lemma la_x : @la_lookup_x XR _ = map Fin xaxis.
Proof. unfold la_lookup_x, xaxis. now rewrite map_map. Qed.
Lemma la_y : @la_lookup_y XR _ = map Fin yaxis.
Proof. unfold la_lookup_y, yaxis. now rewrite map_map. Qed.
Lemma nth_xaxis k : (k < 38)%nat -> nth k xaxis 0 = 10 * IZR (Z.of_nat k) - 5.
Proof.
  intros Hk. unfold xaxis. rewrite (nth_map _ _ _ _ 0%nat) by (now rewrite seq_length).
  rewrite seq_nth by auto. rewrite minus_IZR, mult_IZR. reflexivity.
Qed.
Lemma nth_yaxis k : (k < 18)%nat -> nth k yaxis 0 = 85 - 10 * IZR (Z.of_nat k).
Proof.
  intros Hk. unfold yaxis. rewrite (nth_map _ _ _ _ 0%nat) by (now rewrite seq_length).
  rewrite seq_nth by auto. rewrite minus_IZR, mult_IZR. reflexivity.
Qed.

Definition clamp17 (z : Z) : Z := Z.max 0 (Z.min 17 z).
(* row and column of a point *)
Definition rowZ (y : R) : Z := (Zceil ((90 - y) / 10) - 1)%Z.
Definition colZ (x : R) : Z := (Zceil (x / 10) - 1)%Z.

Lemma Zceil_unique z x : IZR z - 1 < x <= IZR z -> Zceil x = z.
Proof. intros Hz. apply Zceil_imp. rewrite minus_IZR. lra. Qed.

Lemma box_number_eval x y : 0 <= x <= 360 ->
  nearest_neighbour la_lookup_x la_lookup_y la_lookup_no (Fin x) (Fin y)
  = Z.to_nat (18 * (colZ x mod 36) + clamp17 (rowZ y) + 1).
Proof.
  intros Hx. rewrite la_x, la_y.
  destruct (nearest_main xaxis yaxis la_lookup_no x y) as (i & j & -> & Li & Lj & Mi & Fi & Mj & Fj); [discriminate..|].
  change (length xaxis) with 38%nat in *. change (length yaxis) with 18%nat in *.
  (* column *)
  assert (Hc : exists c : Z, (0 <= c < 36)%Z /\ Z.of_nat (if Nat.eqb i 0 then 35 else if Nat.eqb i 37 then 0 else i - 1)%nat = c
                /\ c = (colZ x mod 36)%Z).
  { assert (A : (0 < i)%nat -> 10 * IZR (Z.of_nat i) - 10 < x).
    { intros Hi. specialize (Fi (i - 1)%nat ltac:(lia)). rewrite !nth_xaxis in Fi by lia.
      rewrite Nat2Z.inj_sub, minus_IZR in Fi by lia. simpl IZR in Fi.
      unfold Rabs in Fi. destruct (Rcase_abs _) in Fi; destruct (Rcase_abs _) in Fi; lra. }
    assert (B : (i < 37)%nat -> x <= 10 * IZR (Z.of_nat i)).
    { intros Hi. specialize (Mi (S i) ltac:(lia)). rewrite !nth_xaxis in Mi by lia.
      rewrite Nat2Z.inj_succ, succ_IZR in Mi.
      unfold Rabs in Mi. destruct (Rcase_abs _) in Mi; destruct (Rcase_abs _) in Mi; lra. }
    assert (Hi37 : (i < 37)%nat).
    { destruct (lt_dec i 37); auto. exfalso. assert (i = 37)%nat by lia. subst.
      specialize (A ltac:(lia)). change (Z.of_nat 37) with 37%Z in A. lra. }
    specialize (B Hi37).
    assert (Cz : Zceil (x / 10) = Z.of_nat i).
    { apply Zceil_unique. split; [|lra]. destruct (Nat.eq_dec i 0) as [->|].
      - change (Z.of_nat 0) with 0%Z. lra.
      - specialize (A ltac:(lia)). lra. }
    unfold colZ. rewrite Cz. eexists; split; [|split; [reflexivity|]].
    - destruct (Nat.eqb_spec i 0); [lia|]. destruct (Nat.eqb_spec i 37); lia.
    - destruct (Nat.eqb_spec i 0) as [->|]; [reflexivity|]. destruct (Nat.eqb_spec i 37); [lia|].
      rewrite Z.mod_small; lia. }
  destruct Hc as (c & Hc & Ec & Em).
  assert (Hr : Z.of_nat j = clamp17 (rowZ y)).
  { assert (A : (0 < j)%nat -> y < 90 - 10 * IZR (Z.of_nat j)).
    { intros Hi. specialize (Fj (j - 1)%nat ltac:(lia)). rewrite !nth_yaxis in Fj by lia.
      rewrite Nat2Z.inj_sub, minus_IZR in Fj by lia. simpl IZR in Fj.
      unfold Rabs in Fj. destruct (Rcase_abs _) in Fj; destruct (Rcase_abs _) in Fj; lra. }
    assert (B : (j < 17)%nat -> 80 - 10 * IZR (Z.of_nat j) <= y).
    { intros Hi. specialize (Mj (S j) ltac:(lia)). rewrite !nth_yaxis in Mj by lia.
      rewrite Nat2Z.inj_succ, succ_IZR in Mj.
      unfold Rabs in Mj. destruct (Rcase_abs _) in Mj; destruct (Rcase_abs _) in Mj; lra. }
    unfold clamp17, rowZ.
    destruct (Nat.eq_dec j 0) as [->|J0]; [|destruct (Nat.eq_dec j 17) as [->|J17]].
    - specialize (B ltac:(lia)). change (Z.of_nat 0) with 0%Z in *.
      assert (Zceil ((90 - y) / 10) <= 1)%Z by (apply Zceil_glb; lra). lia.
    - specialize (A ltac:(lia)). change (Z.of_nat 17) with 17%Z in *.
      assert (17 < Zceil ((90 - y) / 10))%Z.
      { apply lt_IZR. pose proof (Zceil_ub ((90 - y) / 10)). lra. }
      lia.
    - specialize (A ltac:(lia)). specialize (B ltac:(lia)).
      assert (Zceil ((90 - y) / 10) = Z.of_nat j + 1)%Z.
      { apply Zceil_unique. rewrite plus_IZR. lra. }
      lia. }
  unfold la_lookup_no. lia.
Qed.

(* ---- the 25 numbers ---- *)
Lemma Zceil_plus x k : Zceil (x + IZR k) = (Zceil x + k)%Z.
Proof.
  apply Zceil_unique. rewrite plus_IZR. pose proof (Zceil_ub x). pose proof (Zceil_lb x). lra.
Qed.

Lemma colZ_shift x k : colZ (x + 10 * IZR k) = (colZ x + k)%Z.
Proof.
  unfold colZ. replace ((x + 10 * IZR k) / 10) with (x / 10 + IZR k) by field. rewrite Zceil_plus. lia.
Qed.
Lemma rowZ_shift y k : rowZ (y + 10 * IZR k) = (rowZ y - k)%Z.
Proof.
  unfold rowZ. replace ((90 - (y + 10 * IZR k)) / 10) with ((90 - y) / 10 + IZR (- k)) by (rewrite opp_IZR; field).
  rewrite Zceil_plus. lia.
Qed.

Lemma ln_y_eval lat : @ln_y XR _ (Fin lat) = map (fun o => Fin (lat + o)) offsets.
Proof.
  unfold ln_y, offsets. rewrite !nq_fin by lia. cbn [nadd nsub XR_Num xadd xsub map].
  replace (lat - 999 / 100) with (lat + -999 / 100) by field.
  replace (lat - 1999 / 100) with (lat + -1999 / 100) by field. reflexivity.
Qed.

Definition wrap360 (x : R) : R := if Rltb x 0 then x + 360 else if Rleb 360 x then x - 360 else x.

Lemma ln_x_eval lon : 0 <= lon < 360 -> @ln_x XR _ (Fin lon) = map (fun o => Fin (wrap360 (lon + o))) offsets.
Proof.
  intros Hl. unfold ln_x, ln_x0, offsets. rewrite !nq_fin by lia.
  cbn [nadd nsub XR_Num xadd xsub map]. unfold wrap_high, wrap_low, wrap360.
  cbn [nltb nleb nofZ XR_Num xltb xleb].
  assert (E : forall a b c d e a' b' c' d' e' : XR, a = a' -> b = b' -> c = c' -> d = d' -> e = e' ->
     [a;b;c;d;e] = [a';b';c';d';e']) by (intros; subst; reflexivity).
  apply E; clear E; cbn [nadd nsub XR_Num xadd xsub].
  - rewrite (proj2 (Rltb_false (lon + 1 / 100) 0)) by lra. destruct (Rleb 360 _); reflexivity.
  - rewrite (proj2 (Rltb_false (lon + 1001 / 100) 0)) by lra. destruct (Rleb 360 _); reflexivity.
  - rewrite (proj2 (Rleb_false 360 (lon + -999 / 100))) by lra.
    replace (lon - 999 / 100) with (lon + -999 / 100) by field. destruct (Rltb _ 0); reflexivity.
  - rewrite (proj2 (Rltb_false (lon + 2001 / 100) 0)) by lra. destruct (Rleb 360 _); reflexivity.
  - rewrite (proj2 (Rleb_false 360 (lon + -1999 / 100))) by lra.
    replace (lon - 1999 / 100) with (lon + -1999 / 100) by field. destruct (Rltb _ 0); reflexivity.
Qed.

Lemma wrap360_range x : -360 <= x < 720 -> 0 <= wrap360 x <= 360.
Proof. intros Hx. unfold wrap360. destruct (Rltb x 0) eqn:E; [apply Rltb_true in E; lra|].
  apply Rltb_false in E. destruct (Rleb 360 x) eqn:F; [apply Rleb_true in F; lra|apply Rleb_false in F; lra]. Qed.

Lemma wrap360_col x : (colZ (wrap360 x) mod 36 = colZ x mod 36)%Z.
Proof.
  unfold wrap360. destruct (Rltb x 0); [|destruct (Rleb 360 x); [|reflexivity]].
  - replace (x + 360) with (x + 10 * IZR 36) by (simpl; lra). rewrite colZ_shift.
    change 36%Z with (1 * 36)%Z at 1. apply Z_mod_plus_full.
  - replace (x - 360) with (x + 10 * IZR (-36)) by (simpl; lra). rewrite colZ_shift.
    change (-36)%Z with ((-1) * 36)%Z. apply Z_mod_plus_full.
Qed.

Definition number (c r : Z) : nat := Z.to_nat (18 * (c mod 36) + clamp17 r + 1).

Lemma offset_shift o : In o offsets -> exists k, In k shifts /\ o = 1/100 + 10 * IZR k.
Proof.
  intros Ho. simpl in Ho. unfold shifts.
  decompose [or] Ho; subst; [exists 0%Z|exists 1%Z|exists (-1)%Z|exists 2%Z|exists (-2)%Z|contradiction];
    (split; [simpl; auto 6|lra]).
Qed.

Lemma offsets_eq : offsets = map (fun k => 1/100 + 10 * IZR k) shifts.
Proof.
  unfold offsets, shifts. cbn [map].
  replace (1 / 100 + 10 * 0) with (1/100) by lra. replace (1 / 100 + 10 * 1) with (1001/100) by lra.
  replace (1 / 100 + 10 * -1) with (-999/100) by lra. replace (1 / 100 + 10 * 2) with (2001/100) by lra.
  replace (1 / 100 + 10 * -2) with (-1999/100) by lra. reflexivity.
Qed.

Lemma box_numbers_eval lon lat : 0 <= lon < 360 ->
  box_numbers (Fin lon) (Fin lat)
  = flat_map (fun ky => map (fun kx => number (colZ (lon + 1/100) + kx) (rowZ (lat + 1/100) - ky)) shifts) shifts.
Proof.
  intros Hl. unfold box_numbers. rewrite ln_y_eval, ln_x_eval by auto. rewrite offsets_eq, !map_map.
  rewrite flat_map_concat_map, map_map, <- flat_map_concat_map.
  rewrite !flat_map_concat_map. f_equal. apply map_ext_in. intros ky Hky. rewrite map_map. apply map_ext_in. intros kx Hkx.
  assert (Hkx' : -20 <= 10 * IZR kx <= 20).
  { unfold shifts in Hkx. simpl in Hkx. decompose [or] Hkx; subst; simpl IZR; try contradiction; lra. }
  rewrite box_number_eval by (apply wrap360_range; lra).
  rewrite wrap360_col. unfold number. rewrite <- !Rplus_assoc. rewrite colZ_shift, rowZ_shift. reflexivity.
Qed.

Lemma number_range c r : (1 <= number c r <= 648)%nat.
Proof.
  unfold number, clamp17. pose proof (Z.mod_pos_bound c 36 ltac:(lia)). lia.
Qed.

Lemma number_lon c r : box_lon (number c r) = (10 * (c mod 36))%Z.
Proof.
  unfold box_lon, number, clamp17. pose proof (Z.mod_pos_bound c 36 ltac:(lia)).
  f_equal. rewrite Nat2Z.inj_div. change (Z.of_nat 18) with 18%Z.
  symmetry. apply Z.div_unique_pos with (r := Z.max 0 (Z.min 17 r)); lia.
Qed.
Lemma number_lat c r : box_latN (number c r) = (90 - 10 * clamp17 r)%Z.
Proof.
  unfold box_latN, number. pose proof (Z.mod_pos_bound c 36 ltac:(lia)).
  assert (0 <= clamp17 r <= 17)%Z by (unfold clamp17; lia).
  f_equal. f_equal. rewrite Nat2Z.inj_mod. change (Z.of_nat 18) with 18%Z.
  symmetry. apply Z.mod_unique_pos with (q := (c mod 36)%Z); lia.
Qed.

Lemma number_covers x y : -90 <= y <= 90 -> box_covers (number (colZ x) (rowZ y)) x y.
Proof.
  intros Hy. split; [apply number_range|]. split.
  - exists (- (colZ x / 36))%Z. rewrite number_lon.
    pose proof (Z.div_mod (colZ x) 36 ltac:(lia)) as D.
    assert (E : IZR (10 * (colZ x mod 36)) = 10 * IZR (colZ x) - 360 * IZR (colZ x / 36)).
    { rewrite <- !mult_IZR, <- minus_IZR. f_equal. lia. }
    assert (E' : IZR (colZ x) = IZR (Zceil (x / 10)) - 1) by (unfold colZ; now rewrite minus_IZR).
    rewrite E, opp_IZR, E'.
    pose proof (Zceil_ub (x / 10)). pose proof (Zceil_lb (x / 10)). lra.
  - rewrite number_lat. rewrite minus_IZR, mult_IZR.
    pose proof (Zceil_ub ((90 - y) / 10)). pose proof (Zceil_lb ((90 - y) / 10)).
    assert (Zceil ((90 - y) / 10) <= 18)%Z by (apply Zceil_glb; lra).
    assert (0 <= Zceil ((90 - y) / 10))%Z.
    { apply le_IZR. lra. }
    unfold clamp17, rowZ in *. destruct (Z.eq_dec (Zceil ((90 - y) / 10)) 0) as [E|N].
    + rewrite E in *. change (Z.max 0 (Z.min 17 (0 - 1))) with 0%Z. simpl. lra.
    + replace (Z.max 0 (Z.min 17 (Zceil ((90 - y) / 10) - 1))) with (Zceil ((90 - y) / 10) - 1)%Z by lia.
      rewrite minus_IZR. lra.
Qed.

(* the order in which neighbours are visited *)
Lemma boxes_ok {T} `{Num T} lon lat (tbl : list (list T)) :
  nisnan lon = false -> nisnan lat = false ->
  (forall n, In n (box_numbers lon lat) -> (1 <= n <= length tbl)%nat) ->
  find_25boxes lon lat tbl = Ok (map (fun n => nth (n - 1) tbl []) (box_numbers lon lat)).
Proof.
  intros H1 H2 Hn. unfold find_25boxes. rewrite H1, H2. cbn [negb andb].
  apply mapM_map. intros n Hi. specialize (Hn n Hi).
  rewrite (nth_error_nth' tbl []) by lia. reflexivity.
Qed.

Lemma box_numbers_range {T} `{Num T} (lon lat : T) n : In n (box_numbers lon lat) -> (1 <= n <= 648)%nat.
Proof.
  unfold box_numbers. intros Hn. apply in_flat_map in Hn as (y & _ & Hn). apply in_map_iff in Hn as (x & <- & _).
  unfold nearest_neighbour.
  assert (A : (argmin (map (fun a => nabs (nsub a x)) la_lookup_x) < 38)%nat).
  { eapply Nat.lt_le_trans; [apply argmin_lt; discriminate|]. rewrite map_length. unfold la_lookup_x. now rewrite map_length, seq_length. }
  assert (B : (argmin (map (fun a => nabs (nsub a y)) la_lookup_y) < 18)%nat).
  { eapply Nat.lt_le_trans; [apply argmin_lt; discriminate|]. rewrite map_length. unfold la_lookup_y. now rewrite map_length, seq_length. }
  revert A B. generalize (argmin (map (fun a => nabs (nsub a x)) la_lookup_x)) as c.
  generalize (argmin (map (fun a => nabs (nsub a y)) la_lookup_y)) as r. intros r c A B.
  unfold la_lookup_no. destruct (Nat.eqb_spec c 0); [lia|]. destruct (Nat.eqb_spec c 37); lia.
Qed.

Lemma box_numbers_length {T} `{Num T} (lon lat : T) : length (box_numbers lon lat) = 25%nat.
Proof. unfold box_numbers, ln_y, ln_x, ln_x0. reflexivity. Qed.

(* ---- C21 ---- *)
Lemma boxes_cover_numbers lon lat : 0 <= lon < 360 -> -7001/100 <= lat <= 6999/100 ->
  let ns := box_numbers (Fin lon) (Fin lat) in
  (forall i j, (i < 5)%nat -> (j < 5)%nat ->
        box_covers (nth (5 * i + j) ns 0%nat) (lon + nth j offsets 0) (lat + nth i offsets 0))
  /\ (forall i j, (i < 5)%nat -> (j < 5)%nat ->
        let n := nth (5 * i + j) ns 0%nat in let n0 := nth 0 ns 0%nat in
        (exists k, box_lon n = box_lon n0 + 10 * nth j shifts 0 + 360 * k)%Z
        /\ (lat < 6999/100 -> box_latN n = (box_latN n0 + 10 * nth i shifts 0)%Z)).
Proof.
  intros Hlon Hlat ns. subst ns. split.
  - intros i j Hi Hj. rewrite box_numbers_eval by auto.
    assert (G : forall i j, (i < 5)%nat -> (j < 5)%nat -> nth (5 * i + j)
       (flat_map (fun ky => map (fun kx => number (colZ (lon + 1/100) + kx) (rowZ (lat + 1/100) - ky)) shifts) shifts) 0%nat
       = number (colZ (lon + nth j offsets 0)) (rowZ (lat + nth i offsets 0))).
    { intros a b Ha Hb.
      assert (Eb : colZ (lon + nth b offsets 0) = (colZ (lon + 1/100) + nth b shifts 0)%Z).
      { rewrite <- colZ_shift. f_equal. rewrite offsets_eq, (nth_map _ _ _ _ 0%Z) by auto. lra. }
      assert (Ea : rowZ (lat + nth a offsets 0) = (rowZ (lat + 1/100) - nth a shifts 0)%Z).
      { rewrite <- rowZ_shift. f_equal. rewrite offsets_eq, (nth_map _ _ _ _ 0%Z) by auto. lra. }
      rewrite Ea, Eb.
      destruct a as [|[|[|[|[|]]]]]; [| | | | |lia]; destruct b as [|[|[|[|[|]]]]]; try lia; reflexivity. }
    rewrite G by auto. apply number_covers.
    assert (-20 + 1/100 <= nth i offsets 0 <= 20 + 1/100).
    { unfold offsets. destruct i as [|[|[|[|[|]]]]]; cbn [nth]; try lra. lia. }
    lra.
  - intros i j Hi Hj n n0. subst n n0. rewrite box_numbers_eval by auto.
    assert (G : forall i j, (i < 5)%nat -> (j < 5)%nat -> nth (5 * i + j)
       (flat_map (fun ky => map (fun kx => number (colZ (lon + 1/100) + kx) (rowZ (lat + 1/100) - ky)) shifts) shifts) 0%nat
       = number (colZ (lon + 1/100) + nth j shifts 0%Z) (rowZ (lat + 1/100) - nth i shifts 0%Z)).
    { intros a b Ha Hb.
      destruct a as [|[|[|[|[|]]]]]; [| | | | |lia]; destruct b as [|[|[|[|[|]]]]]; try lia; reflexivity. }
    rewrite (G i j) by auto. pose proof (G 0%nat 0%nat ltac:(lia) ltac:(lia)) as G0. change (5 * 0 + 0)%nat with 0%nat in G0. rewrite G0.
    rewrite !number_lon, !number_lat. change (nth 0 shifts 0%Z) with 0%Z. rewrite Z.add_0_r, Z.sub_0_r.
    set (c := colZ _). set (r := rowZ (lat + 1/100)).
    split.
    + pose proof (Z.div_mod (c + nth j shifts 0%Z) 36 ltac:(lia)). pose proof (Z.div_mod c 36 ltac:(lia)).
      exists (c / 36 - (c + nth j shifts 0%Z) / 36)%Z. lia.
    + intros Hlt.
      assert (-2 <= nth i shifts 0%Z <= 2)%Z.
      { unfold shifts. destruct i as [|[|[|[|[|]]]]]; cbn [nth]; lia. }
      assert (2 <= r <= 15)%Z.
      { unfold r, rowZ. split.
        - assert (2 < Zceil ((90 - (lat + 1/100)) / 10))%Z; [|lia]. apply lt_IZR.
          pose proof (Zceil_ub ((90 - (lat + 1 / 100)) / 10)). lra.
        - assert (Zceil ((90 - (lat + 1/100)) / 10) <= 16)%Z; [|lia]. apply Zceil_glb. lra. }
      unfold clamp17. lia.
Qed.

Lemma boxes_cover lon lat (tbl : list (list XR)) :
  0 <= lon < 360 -> -7001/100 <= lat <= 6999/100 -> length tbl = 648%nat ->
  exists ns, length ns = 25%nat
   /\ find_25boxes (Fin lon) (Fin lat) tbl = Ok (map (fun n => nth (n - 1) tbl []) ns)
   /\ (forall i j, (i < 5)%nat -> (j < 5)%nat ->
        box_covers (nth (5 * i + j) ns 0%nat) (lon + nth j offsets 0) (lat + nth i offsets 0))
   /\ (forall i j, (i < 5)%nat -> (j < 5)%nat ->
        let n := nth (5 * i + j) ns 0%nat in let n0 := nth 0 ns 0%nat in
        (exists k, box_lon n = box_lon n0 + 10 * nth j shifts 0 + 360 * k)%Z
        /\ (lat < 6999/100 -> box_latN n = (box_latN n0 + 10 * nth i shifts 0)%Z)).
Proof.
  intros Hlon Hlat Ht. exists (box_numbers (Fin lon) (Fin lat)).
  split; [apply box_numbers_length|]. split; [|now apply boxes_cover_numbers].
  apply boxes_ok; auto. intros n Hn. apply box_numbers_range in Hn. lia.
Qed.

Lemma NoDup_map_in {A B} (f : A -> B) l : (forall a b, In a l -> In b l -> f a = f b -> a = b) ->
  NoDup l -> NoDup (map f l).
Proof.
  intros Hf Hn. induction Hn as [|x l Hx Hn IH]; [constructor|]. cbn [map]. constructor.
  - intros Hi. apply in_map_iff in Hi as (y & E & Hy). apply Hx.
    rewrite (Hf x y); auto; [now left|now right].
  - apply IH. intros a b Ha Hb. apply Hf; now right.
Qed.

(* ---- C22 ---- *)
Lemma number_inj c r c' r' : number c r = number c' r' -> (c mod 36 = c' mod 36 /\ clamp17 r = clamp17 r')%Z.
Proof.
  intros E. pose proof (number_lon c r) as A. pose proof (number_lon c' r') as B.
  pose proof (number_lat c r) as C. pose proof (number_lat c' r') as D. rewrite E in A, C. lia.
Qed.

Lemma boxes_distinct lon lat : 0 <= lon < 360 ->
  (NoDup (box_numbers (Fin lon) (Fin lat)) <-> -7001/100 <= lat < 6999/100).
Proof.
  intros Hlon. rewrite box_numbers_eval by auto. set (c := colZ _). set (r := rowZ (lat + 1/100)).
  assert (Hr : (2 <= r <= 15)%Z <-> -7001/100 <= lat < 6999/100).
  { unfold r, rowZ. split.
    - intros [A B].
      assert (C : (Zceil ((90 - (lat + 1 / 100)) / 10) <= 16)%Z) by lia. apply IZR_le in C.
      assert (D : (3 <= Zceil ((90 - (lat + 1 / 100)) / 10))%Z) by lia. apply IZR_le in D.
      pose proof (Zceil_ub ((90 - (lat + 1 / 100)) / 10)). pose proof (Zceil_lb ((90 - (lat + 1 / 100)) / 10)). lra.
    - intros [A B]. split.
      + assert (2 < Zceil ((90 - (lat + 1/100)) / 10))%Z; [|lia]. apply lt_IZR.
        pose proof (Zceil_ub ((90 - (lat + 1 / 100)) / 10)). lra.
      + assert (Zceil ((90 - (lat + 1/100)) / 10) <= 16)%Z; [|lia]. apply Zceil_glb. lra. }
  rewrite <- Hr. clear Hr. split.
  - intros N.
    assert (P : forall a b : nat, (a < 25)%nat -> (b < 25)%nat -> nth a
       (flat_map (fun ky => map (fun kx => number (c + kx) (r - ky)) shifts) shifts) 0%nat =
        nth b (flat_map (fun ky => map (fun kx => number (c + kx) (r - ky)) shifts) shifts) 0%nat -> a = b).
    { intros a b Ha Hb E. eapply NoDup_nth; eauto. }
    destruct (Z_lt_le_dec r 2) as [L|L].
    + exfalso. specialize (P 5%nat 15%nat ltac:(lia) ltac:(lia)). cbn [nth flat_map map shifts app] in P.
      assert (5 = 15)%nat; [|lia]. apply P. unfold number. f_equal. f_equal. f_equal. unfold clamp17. lia.
    + destruct (Z_lt_le_dec 15 r) as [L'|L']; [|lia].
      exfalso. specialize (P 10%nat 20%nat ltac:(lia) ltac:(lia)). cbn [nth flat_map map shifts app] in P.
      assert (10 = 20)%nat; [|lia]. apply P. unfold number. f_equal. f_equal. f_equal. unfold clamp17. lia.
  - intros Hr.
    set (prs := list_prod shifts shifts).
    assert (E : flat_map (fun ky => map (fun kx => number (c + kx) (r - ky)) shifts) shifts
              = map (fun q => number (c + snd q) (r - fst q)) prs) by reflexivity.
    rewrite E. apply NoDup_map_in.
    + intros [a b] [a' b'] H1 H2 Eq. cbn [fst snd] in Eq. apply number_inj in Eq as [E1 E2].
      apply in_prod_iff in H1 as [H1 H1']. apply in_prod_iff in H2 as [H2 H2'].
      assert (G : forall z, In z shifts -> (-2 <= z <= 2)%Z) by (intros z Hz; simpl in Hz; lia).
      apply G in H1, H1', H2, H2'. unfold clamp17 in E2.
      assert (a = a') by lia.
      assert (b = b').
      { pose proof (Z.div_mod (c + b) 36 ltac:(lia)). pose proof (Z.div_mod (c + b') 36 ltac:(lia)). lia. }
      congruence.
    + unfold prs. clear. cbn. repeat (constructor; [simpl; intros C; decompose [or] C; try discriminate; contradiction|]). constructor.
Qed.

Lemma NoDup_map_nth {A} (d : A) (tbl : list A) ns : NoDup tbl -> (forall n, In n ns -> (1 <= n <= length tbl)%nat) ->
  (NoDup (map (fun n => nth (n - 1) tbl d) ns) <-> NoDup ns).
Proof.
  intros Nt Hn. split.
  - apply NoDup_map_inv.
  - intros Nn. apply NoDup_map_in; auto. intros a b Ha Hb E. apply Hn in Ha, Hb.
    assert (a - 1 = b - 1)%nat; [|lia]. apply (proj1 (NoDup_nth tbl d) Nt); [lia|lia|auto].
Qed.

Lemma boxes_rows_distinct lon lat (tbl : list (list XR)) : 0 <= lon < 360 -> length tbl = 648%nat -> NoDup tbl ->
  exists rows, find_25boxes (Fin lon) (Fin lat) tbl = Ok rows /\ (NoDup rows <-> -7001/100 <= lat < 6999/100).
Proof.
  intros Hl Ht Nt. eexists. split.
  - apply boxes_ok; auto. intros n Hn. apply box_numbers_range in Hn. lia.
  - rewrite NoDup_map_nth; auto; [now apply boxes_distinct|].
    intros n Hn. apply box_numbers_range in Hn. lia.
Qed.

(* ---- C23 ---- *)
Lemma boxes_nan {T} `{Num T} (lon lat : T) (tbl : list (list T)) :
  (nisnan lon = true \/ nisnan lat = true -> find_25boxes lon lat tbl = Ok (repeat (repeat nnan 4) 25)) /\
  (nisnan lon = false -> nisnan lat = false -> length tbl = 648%nat ->
     exists rows, find_25boxes lon lat tbl = Ok rows /\ length rows = 25%nat /\ forall r, In r rows -> In r tbl).
Proof.
  split.
  - intros Hn. unfold find_25boxes. destruct (nisnan lon), (nisnan lat); auto. destruct Hn; discriminate.
  - intros H1 H2 Ht.
    assert (G : forall n, In n (box_numbers lon lat) -> (1 <= n <= length tbl)%nat).
    { intros n Hn. rewrite Ht. eapply box_numbers_range; eauto. }
    eexists. split; [now apply boxes_ok|]. split; [now rewrite map_length, box_numbers_length|].
    intros r Hr. apply in_map_iff in Hr as (n & <- & Hn). apply nth_In. specialize (G n Hn). lia.
Qed.
