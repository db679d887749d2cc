(* Proofs for signal_variance and noise_variance *)
From Coq Require Import ZArith List Bool Reals Lra Lia Permutation.
From Verif Require Import Num Np NumFacts NpFacts Finders Stats Spec_Finders Spec_Stats
  Proofs_Besthist Proofs_Thetas Proofs_Thetas2.
Import ListNotations.
Local Open Scope R_scope.

Lemma var0_fin l : l <> [] -> var_ddof 0 (map Fin l) = Fin (pop_var l).
Proof.
  intros Hl. unfold var_ddof. rewrite mean_fin by auto. rewrite map_map.
  assert (E : map (fun x => nsq (nsub (Fin x) (Fin (mean_of l)))) l = map Fin (map (fun x => (x - mean_of l) ^ 2) l)).
  { rewrite map_map. apply map_ext. intros a. cbn. f_equal. ring. }
  rewrite E, nsum_fin. unfold nlen. rewrite map_length. cbn [nsub nofZ XR_Num xsub].
  rewrite <- INR_IZR_INZ. rewrite Rminus_0_r.
  rewrite ndiv_fin.
  - unfold pop_var, mean_of at 2. rewrite map_length. reflexivity.
  - apply not_0_INR. destruct l; simpl; congruence.
Qed.

Lemma signal_variance_value l :
  (somes l = [] -> signal_variance (map oX l) = Raise RuntimeError) /\
  (somes l <> [] -> signal_variance (map oX l) = Ok (Fin (pop_var (somes l)))).
Proof.
  unfold signal_variance. split; intros E.
  - apply forallb_somes in E. now rewrite E.
  - destruct (forallb nisnan (map oX l)) eqn:F.
    + apply forallb_somes in F. contradiction.
    + rewrite drop_nan_oX, var0_fin by auto. reflexivity.
Qed.

Lemma mean_shift l c : l <> [] -> mean_of (map (fun x => x + c) l) = mean_of l + c.
Proof.
  intros Hl. unfold mean_of. rewrite map_length. fold (rsum (map (fun x => x + c) l)) (rsum l).
  rewrite rsum_map_plus, rsum_const, map_id. field. apply not_0_INR. destruct l; simpl; congruence.
Qed.
Lemma mean_scale l c : mean_of (map (fun x => c * x) l) = c * mean_of l.
Proof.
  unfold mean_of. rewrite map_length. fold (rsum (map (fun x => c * x) l)) (rsum l).
  rewrite rsum_map_scal, map_id. unfold Rdiv. ring.
Qed.
Lemma mean_perm l l' : Permutation l l' -> mean_of l = mean_of l'.
Proof.
  intros P. unfold mean_of. rewrite (Permutation_length P). f_equal. now apply rsum_perm.
Qed.

Lemma pop_var_shift l c : l <> [] -> pop_var (map (fun x => x + c) l) = pop_var l.
Proof.
  intros Hl. unfold pop_var. rewrite map_map, mean_shift by auto. f_equal. apply map_ext. intros; ring.
Qed.
Lemma pop_var_scale l c : pop_var (map (fun x => c * x) l) = c ^ 2 * pop_var l.
Proof.
  unfold pop_var. rewrite map_map, mean_scale, <- (mean_scale _ (c ^ 2)), map_map. f_equal. apply map_ext. intros; ring.
Qed.
Lemma pop_var_perm l l' : Permutation l l' -> pop_var l = pop_var l'.
Proof.
  intros P. unfold pop_var. rewrite (mean_perm _ _ P). apply mean_perm. now apply Permutation_map.
Qed.
Lemma mean_nonneg l : (forall x, In x l -> 0 <= x) -> 0 <= mean_of l.
Proof.
  intros Hl. unfold mean_of. destruct l as [|x l].
  - simpl. unfold Rdiv. rewrite Rmult_0_l. lra.
  - apply Rmult_le_pos; [now apply rsum_nonneg|]. left. apply Rinv_0_lt_compat. apply lt_0_INR. simpl; lia.
Qed.
Lemma pop_var_nonneg l : 0 <= pop_var l.
Proof.
  apply mean_nonneg. intros x Hx. apply in_map_iff in Hx as (y & <- & _). apply pow2_ge_0.
Qed.
Lemma mean_const l c : l <> [] -> (forall x, In x l -> x = c) -> mean_of l = c.
Proof.
  intros Hl E. unfold mean_of. fold (rsum l).
  replace (rsum l) with (INR (length l) * c); [field; apply not_0_INR; destruct l; simpl; congruence|].
  rewrite <- rsum_const. f_equal. clear Hl. induction l as [|x l IH]; simpl; auto.
  f_equal; [symmetry; apply E; simpl; auto|apply IH; intros; apply E; simpl; auto].
Qed.
Lemma pop_var_zero l : l <> [] -> (pop_var l = 0 <-> forall x y, In x l -> In y l -> x = y).
Proof.
  intros Hl. split.
  - intros E x y Hx Hy. unfold pop_var, mean_of at 1 in E. rewrite map_length in E.
    fold (rsum (map (fun x => (x - mean_of l) ^ 2) l)) in E.
    assert (Z : rsum (map (fun x => (x - mean_of l) ^ 2) l) = 0).
    { apply Rmult_integral in E as [E|E]; auto. exfalso.
      assert (INR (length l) <> 0) by (apply not_0_INR; destruct l; simpl; congruence).
      now apply (Rinv_neq_0_compat (INR (length l))). }
    assert (G : forall z, In z l -> z = mean_of l).
    { intros z Hz.
      assert (Q : (z - mean_of l) ^ 2 = 0).
      { apply (proj1 (rsum_zero_iff (map (fun x => (x - mean_of l) ^ 2) l)
          ltac:(intros q Hq; apply in_map_iff in Hq as (r & <- & _); apply pow2_ge_0)) Z).
        now apply (in_map (fun x => (x - mean_of l) ^ 2)). }
      rewrite <- Rsqr_pow2 in Q. apply Rsqr_eq_0 in Q. lra. }
    rewrite (G x Hx), (G y Hy). reflexivity.
  - intros E. destruct l as [|a l]; [congruence|].
    assert (M : mean_of (a :: l) = a).
    { apply mean_const; [congruence|]. intros x Hx. apply E; simpl; auto. }
    unfold pop_var. rewrite M. apply mean_const; [simpl; congruence|].
    intros x Hx. apply in_map_iff in Hx as (y & <- & Hy).
    rewrite (E y a Hy ltac:(simpl; auto)). ring.
Qed.

Lemma somes_map {A B} (f : A -> B) l : somes (map (option_map f) l) = map f (somes l).
Proof. induction l as [|[x|] l IH]; simpl; auto. now rewrite IH. Qed.
Lemma somes_perm {A} (l l' : list (option A)) : Permutation l l' -> Permutation (somes l) (somes l').
Proof.
  induction 1 as [|[x|] l l' _ IH|[x|] [y|] l|l l' l'' _ IH1 _ IH2]; simpl; auto.
  - apply perm_swap.
  - now transitivity (somes l').
Qed.
Lemma map_nil_iff {A B} (f : A -> B) l : map f l = [] <-> l = [].
Proof. destruct l; simpl; split; congruence. Qed.

Lemma signal_shift l c : signal_variance (map oX (map (option_map (fun x => x + c)) l)) = signal_variance (map oX l).
Proof.
  destruct (signal_variance_value l) as [A B].
  destruct (signal_variance_value (map (option_map (fun x => x + c)) l)) as [A' B']. rewrite somes_map in A', B'.
  destruct (somes l) as [|x s] eqn:E.
  - rewrite A, A'; auto.
  - rewrite B by congruence. rewrite B' by (simpl; congruence). rewrite pop_var_shift by congruence. reflexivity.
Qed.
Lemma signal_scale l c v : signal_variance (map oX l) = Ok (Fin v) ->
  signal_variance (map oX (map (option_map (fun x => c * x)) l)) = Ok (Fin (c ^ 2 * v)).
Proof.
  destruct (signal_variance_value l) as [A B].
  destruct (signal_variance_value (map (option_map (fun x => c * x)) l)) as [A' B']. rewrite somes_map in A', B'.
  destruct (somes l) as [|x s] eqn:E.
  - rewrite A by auto. discriminate.
  - rewrite B by congruence. rewrite B' by (simpl; congruence). rewrite pop_var_scale.
    intros Q. injection Q as ->. reflexivity.
Qed.
Lemma signal_perm l l' : Permutation (somes l) (somes l') -> signal_variance (map oX l) = signal_variance (map oX l').
Proof.
  intros P. destruct (signal_variance_value l) as [A B]. destruct (signal_variance_value l') as [A' B'].
  destruct (somes l) as [|x s] eqn:E.
  - apply Permutation_nil in P. rewrite A, A'; auto.
  - assert (somes l' <> []).
    { intros Q. rewrite Q in P. symmetry in P. apply Permutation_nil in P. discriminate. }
    rewrite B by congruence. rewrite B' by auto. rewrite (pop_var_perm _ _ P). reflexivity.
Qed.

(* ---- nanargmin ---- *)
Definition first_min (l : list (option R)) (i : nat) (m : R) : Prop :=
  nth i l None = Some m /\ (i < length l)%nat
  /\ (forall k x, (k < length l)%nat -> nth k l None = Some x -> m <= x /\ ((k < i)%nat -> m < x)).

Lemma nanargmin_from_oX l : forall pre best,
  (match best with
   | None => somes pre = []
   | Some (i, v) => exists m, v = Fin m /\ first_min pre i m
   end) ->
  match nanargmin_from (length pre) best (map oX l) with
  | None => somes (pre ++ l) = []
  | Some (i, v) => exists m, v = Fin m /\ first_min (pre ++ l) i m
  end.
Proof.
  induction l as [|o l IH]; intros pre best Hb.
  - cbn [map nanargmin_from]. rewrite app_nil_r. exact Hb.
  - cbn [map nanargmin_from].
    replace (pre ++ o :: l) with ((pre ++ [o]) ++ l) by (rewrite <- app_assoc; reflexivity).
    replace (S (length pre)) with (length (pre ++ [o])) by (rewrite app_length; simpl; lia).
    apply IH.
    destruct o as [x|]; cbn [oX nisnan XR_Num].
    + assert (Nx : nth (length pre) (pre ++ [Some x]) None = Some x)
        by (rewrite app_nth2, Nat.sub_diag by lia; reflexivity).
      destruct best as [[i v]|].
      * destruct Hb as (m & -> & Hi & Li & Mi). cbn [nltb XR_Num xltb].
        destruct (Rltb x m) eqn:E; rb.
        -- exists x. split; auto. split; auto. rewrite app_length. simpl. split; [lia|].
           intros k y Hk Ek. destruct (Nat.eq_dec k (length pre)) as [->|n].
           ++ rewrite Nx in Ek. injection Ek as ->. split; [lra|lia].
           ++ rewrite app_nth1 in Ek by lia. destruct (Mi k y ltac:(lia) Ek). split; [lra|intros; lra].
        -- exists m. split; auto. split; [rewrite app_nth1; auto|]. rewrite app_length. simpl. split; [lia|].
           intros k y Hk Ek. destruct (Nat.eq_dec k (length pre)) as [->|n].
           ++ rewrite Nx in Ek. injection Ek as ->. split; [lra|lia].
           ++ rewrite app_nth1 in Ek by lia. apply Mi; auto; lia.
      * exists x. split; auto. split; auto. rewrite app_length. simpl. split; [lia|].
        intros k y Hk Ek. destruct (Nat.eq_dec k (length pre)) as [->|n].
        -- rewrite Nx in Ek. injection Ek as ->. split; [lra|lia].
        -- rewrite app_nth1 in Ek by lia. exfalso.
           assert (In y (somes pre)) by (apply in_somes; rewrite <- Ek; apply nth_In; lia).
           rewrite Hb in H. destruct H.
    + destruct best as [[i v]|].
      * destruct Hb as (m & -> & Hi & Li & Mi). exists m. split; auto.
        split; [rewrite app_nth1; auto|]. rewrite app_length. simpl. split; [lia|].
        intros k y Hk Ek. destruct (Nat.eq_dec k (length pre)) as [->|n].
        -- rewrite app_nth2, Nat.sub_diag in Ek by lia. discriminate.
        -- rewrite app_nth1 in Ek by lia. apply Mi; auto; lia.
      * assert (E : forall l1 l2 : list (option R), somes (l1 ++ l2) = somes l1 ++ somes l2).
        { clear. intros l1 l2. induction l1 as [|[z|] l1 IH]; simpl; auto. now rewrite IH. }
        rewrite E, Hb. reflexivity.
Qed.

Lemma nanargmin_oX l : somes l <> [] -> exists i m, nanargmin (map oX l) = Ok i /\ first_min l i m.
Proof.
  intros Hl. unfold nanargmin. pose proof (nanargmin_from_oX l [] None eq_refl) as Q. simpl in Q.
  destruct (nanargmin_from 0 None (map oX l)) as [[i v]|]; [|contradiction].
  destruct Q as (m & -> & F). exists i, m. auto.
Qed.
Lemma nanargmin_none l : somes l = [] -> nanargmin (map oX l) = Raise ValueError.
Proof.
  intros Hl. unfold nanargmin. pose proof (nanargmin_from_oX l [] None eq_refl) as Q. simpl in Q.
  destruct (nanargmin_from 0 None (map oX l)) as [[i v]|]; [|reflexivity].
  destruct Q as (m & -> & E & L & _). exfalso.
  assert (In m (somes l)) by (apply in_somes; rewrite <- E; now apply nth_In). rewrite Hl in H. destruct H.
Qed.


Lemma sqdist_fin a b : sqdist (fstation a) (fstation b) = Fin (dist2 a b).
Proof. unfold sqdist, fstation, dist2. cbn. f_equal. ring. Qed.

Lemma dist2_zero a b : dist2 a b = 0 <-> same_place a b.
Proof.
  unfold dist2, same_place. split.
  - intros E. pose proof (pow2_ge_0 (st_lat a - st_lat b)). pose proof (pow2_ge_0 (st_long a - st_long b)).
    assert (E1 : (st_lat a - st_lat b) ^ 2 = 0) by lra. assert (E2 : (st_long a - st_long b) ^ 2 = 0) by lra.
    rewrite <- Rsqr_pow2 in E1, E2. apply Rsqr_eq_0 in E1. apply Rsqr_eq_0 in E2. split; lra.
  - intros [-> ->]. ring.
Qed.

Lemma same_place_dec a b : {same_place a b} + {~ same_place a b}.
Proof.
  destruct (Req_EM_T (dist2 a b) 0) as [e|n]; [left|right]; now rewrite <- dist2_zero.
Qed.

Definition dist_opt (a b : station) : option R :=
  if same_place_dec a b then None else Some (dist2 a b).

Lemma all_same_check l :
  forallb (forallb (fun d => neqb d (nofZ 0)))
    (map (fun a => map (sqdist a) (map fstation l)) (map fstation l)) = true <-> all_same l.
Proof.
  rewrite forallb_forall. unfold all_same. split.
  - intros F a b Ha Hb. apply dist2_zero.
    specialize (F (map (sqdist (fstation a)) (map fstation l))).
    rewrite forallb_forall in F.
    assert (Q : neqb (sqdist (fstation a) (fstation b)) (nofZ 0) = true).
    { apply F.
      - apply (in_map (fun x => map (sqdist x) (map fstation l))). now apply in_map.
      - apply in_map. now apply in_map. }
    rewrite sqdist_fin in Q. cbn in Q. rb. auto.
  - intros S r Hr. rewrite map_map in Hr. apply in_map_iff in Hr as (a & <- & Ha).
    apply forallb_forall. intros d Hd. rewrite map_map in Hd. apply in_map_iff in Hd as (b & <- & Hb).
    rewrite sqdist_fin. cbn. rb. apply dist2_zero. auto.
Qed.

Lemma masked_rows l :
  map (map (fun d => if neqb d (nofZ 0) then nnan else d))
    (map (fun a => map (sqdist a) (map fstation l)) (map fstation l)) =
  map (fun a => map oX (map (dist_opt a) l)) l.
Proof.
  rewrite !map_map. apply map_ext. intros a. rewrite !map_map. apply map_ext. intros b.
  rewrite sqdist_fin. unfold dist_opt. cbn.
  destruct (same_place_dec a b) as [s|n]; cbn.
  - rewrite (proj2 (dist2_zero a b) s). replace (Reqb 0 0) with true by (symmetry; rb; auto). reflexivity.
  - replace (Reqb (dist2 a b) 0) with false; auto. symmetry. rb. now rewrite dist2_zero.
Qed.

Lemma noise_value l :
  (all_same l -> noise_variance (map fstation l) = Ok (Fin 0)) /\
  (~ all_same l -> exists nn : nat -> nat,
     (forall i, (i < length l)%nat -> nearest l i (nn i)) /\
     let ds := somes (map (fun i => sqdiff (st_sal (nth i l dstation)) (st_sal (nth (nn i) l dstation)))
                          (seq 0 (length l))) in
     noise_variance (map fstation l) = Ok (match ds with [] => NaN | _ => Fin (mean_of ds / 2) end)).
Proof.
  unfold noise_variance. split.
  - intros S. apply all_same_check in S. rewrite S. reflexivity.
  - intros S.
    destruct (forallb (forallb (fun d : XR => neqb d (nofZ 0)))
      (map (fun a => map (sqdist a) (map fstation l)) (map fstation l))) eqn:F.
    { apply all_same_check in F. contradiction. }
    rewrite masked_rows. clear F.
    assert (R : forall i, (i < length l)%nat ->
              exists j, nanargmin (map oX (map (dist_opt (nth i l dstation)) l)) = Ok j /\ nearest l i j).
    { intros i Hi. set (a := nth i l dstation).
      destruct (nanargmin_oX (map (dist_opt a) l)) as (j & m & E & Nj & Lj & Mj).
      - intros Z. apply S. intros b c Hb Hc.
        assert (G : forall b, In b l -> same_place a b).
        { intros b0 Hb0. destruct (same_place_dec a b0) as [s|n]; auto. exfalso.
          assert (In (dist2 a b0) (somes (map (dist_opt a) l))).
          { apply in_somes. apply in_map_iff. exists b0. split; auto. unfold dist_opt.
            destruct (same_place_dec a b0); [contradiction|auto]. }
          rewrite Z in H. destruct H. }
        destruct (G b Hb) as [A1 A2]. destruct (G c Hc) as [B1 B2]. split; congruence.
      - exists j. split; auto. rewrite map_length in *.
        assert (D : forall k, (k < length l)%nat ->
                  nth k (map (dist_opt a) l) None = dist_opt a (nth k l dstation)).
        { intros k Hk. now rewrite (nth_map _ _ _ _ dstation). }
        rewrite D in Nj by auto. unfold dist_opt in Nj.
        destruct (same_place_dec a (nth j l dstation)) as [s|n]; [discriminate|]. injection Nj as <-.
        split; auto. split; auto. split.
        + intros k Hk Hn. apply (Mj k); auto. rewrite D by auto. unfold dist_opt. fold a in Hn.
          destruct (same_place_dec a (nth k l dstation)); [contradiction|auto].
        + intros k Hk Hn. apply (Mj k); auto; [lia|]. rewrite D by lia. unfold dist_opt. fold a in Hn.
          destruct (same_place_dec a (nth k l dstation)); [contradiction|auto]. }
    set (nn := fun i => match nanargmin (map oX (map (dist_opt (nth i l dstation)) l)) with Ok j => j | Raise _ => 0%nat end).
    exists nn.
    assert (N : forall i, (i < length l)%nat -> nearest l i (nn i)).
    { intros i Hi. destruct (R i Hi) as (j & E & Hj). unfold nn. now rewrite E. }
    split; auto. cbv zeta.
    assert (M : mapM nanargmin (map (fun a => map oX (map (dist_opt a) l)) l) = Ok (map nn (seq 0 (length l)))).
    { apply mapM_ok. assert (El : l = map (fun i => nth i l dstation) (seq 0 (length l))).
      { apply (nth_ext _ _ dstation dstation).
        - now rewrite map_length, seq_length.
        - intros k Hk. rewrite (nth_map _ _ _ _ 0%nat) by now rewrite seq_length. now rewrite seq_nth. }
      rewrite El at 1. rewrite map_map.
      assert (Q : forall s, (forall i, In i s -> (i < length l)%nat) ->
        Forall2 (fun a b => nanargmin a = Ok b) (map (fun i => map oX (map (dist_opt (nth i l dstation)) l)) s) (map nn s)).
      { induction s as [|i s IH]; intros Hs; simpl; constructor; auto.
        - destruct (R i (Hs i ltac:(simpl; auto))) as (j & E & _). unfold nn. rewrite E. reflexivity.
        - apply IH. intros; apply Hs; simpl; auto. }
      apply Q. intros i Hi. apply in_seq in Hi. lia. }
    rewrite M. cbn [bind]. f_equal.
    set (ds := map (fun i => sqdiff (st_sal (nth i l dstation)) (st_sal (nth (nn i) l dstation))) (seq 0 (length l))).
    assert (V : map nsq (map (fun p => nsub (o_sal (fst p)) (o_sal (nth (snd p) (map fstation l) (mkObs nnan nnan nnan))))
                  (combine (map fstation l) (map nn (seq 0 (length l))))) = map oX ds).
    { apply (nth_ext _ _ NaN NaN).
      - unfold ds. rewrite !map_length, combine_length, !map_length, seq_length. lia.
      - rewrite !map_length, combine_length, !map_length, seq_length, Nat.min_id. intros i Hi.
        rewrite (nth_map _ _ _ _ NaN) by (rewrite map_length, combine_length, !map_length, seq_length; lia).
        rewrite (nth_map _ _ _ _ (fstation dstation, 0%nat)) by (rewrite combine_length, !map_length, seq_length; lia).
        rewrite combine_nth by now rewrite !map_length, seq_length. cbn [fst snd].
        rewrite map_nth. rewrite (nth_map _ _ _ _ 0%nat) by now rewrite seq_length. rewrite seq_nth by auto.
        rewrite Nat.add_0_l.
        destruct (N i Hi) as (Lj & _).
        rewrite (nth_map _ _ _ _ dstation) by auto.
        unfold ds. rewrite (nth_map _ _ _ _ None) by now rewrite map_length, seq_length.
        rewrite (nth_map _ _ _ _ 0%nat) by now rewrite seq_length. rewrite seq_nth by auto. rewrite Nat.add_0_l.
        cbn [fstation o_sal].
        destruct (st_sal (nth i l dstation)), (st_sal (nth (nn i) l dstation)); cbn; try reflexivity.
        f_equal. ring. }
    rewrite V. unfold nanmean. rewrite drop_nan_oX. destruct (somes ds) as [|d0 dr] eqn:Ed.
    + cbn. destruct (Req_EM_T 0 0) as [|n0]; [|lra]. destruct (Rlt_dec 0 0); [lra|]. reflexivity.
    + rewrite mean_fin by congruence. change (nofZ 2) with (Fin 2). rewrite ndiv_fin by lra. reflexivity.
Qed.

Lemma nearest_unique l i j k : nearest l i j -> nearest l i k -> j = k.
Proof.
  intros (Lj & Nj & Mj & Fj) (Lk & Nk & Mk & Fk).
  destruct (lt_eq_lt_dec j k) as [[h|h]|h]; auto; exfalso.
  - specialize (Fk j h Nj). specialize (Mj k Lk Nk). lra.
  - specialize (Fj k h Nk). specialize (Mk j Lj Nj). lra.
Qed.

Lemma all_same_dec l : all_same l \/ ~ all_same l.
Proof.
  destruct (forallb (forallb (fun d => neqb d (nofZ 0)))
    (map (fun a => map (sqdist a) (map fstation l)) (map fstation l))) eqn:F.
  - left. now apply all_same_check.
  - right. intros S. apply all_same_check in S. congruence.
Qed.

Lemma noise_never_raises l : exists v, noise_variance (map fstation l) = Ok v.
Proof.
  destruct (all_same_dec l) as [S|S].
  - rewrite (proj1 (noise_value l) S). eauto.
  - destruct (proj2 (noise_value l) S) as (nn & _ & E). cbv zeta in E. rewrite E. eauto.
Qed.

Lemma noise_bounds l v B : noise_variance (map fstation l) = Ok (Fin v) ->
  (forall a b x y, In a l -> In b l -> st_sal a = Some x -> st_sal b = Some y -> (x - y) ^ 2 <= B) -> 0 <= B ->
  0 <= v <= B / 2.
Proof.
  intros E HB Bp. destruct (all_same_dec l) as [S|S].
  - rewrite (proj1 (noise_value l) S) in E. injection E as <-. lra.
  - destruct (proj2 (noise_value l) S) as (nn & N & Q). cbv zeta in Q. rewrite E in Q.
    match type of Q with context [somes ?ds] => set (d := ds) in * end.
    assert (D : forall x, In x (somes d) -> 0 <= x <= B).
    { intros x Hx. apply in_somes in Hx. unfold d in Hx. apply in_map_iff in Hx as (i & Ei & Hi).
      apply in_seq in Hi. assert (Li : (i < length l)%nat) by lia. destruct (N i Li) as (Lj & _).
      destruct (st_sal (nth i l dstation)) as [a|] eqn:Ea, (st_sal (nth (nn i) l dstation)) as [b|] eqn:Eb; try discriminate.
      simpl in Ei. injection Ei as <-. split; [change ((a - b) * ((a - b) * 1)) with ((a - b) ^ 2); apply pow2_ge_0|].
      apply (HB (nth i l dstation) (nth (nn i) l dstation)); auto; now apply nth_In. }
    destruct (somes d) as [|d0 dr] eqn:Ed; [discriminate|]. injection Q as ->.
    assert (0 <= mean_of (d0 :: dr)) by (apply mean_nonneg; intros x Hx; apply D; auto).
    assert (mean_of (d0 :: dr) <= B).
    { unfold mean_of. fold (rsum (d0 :: dr)).
      assert (P : 0 < INR (length (d0 :: dr))) by (apply lt_0_INR; simpl; lia).
      apply Rmult_le_reg_r with (INR (length (d0 :: dr))); auto. unfold Rdiv. rewrite Rmult_assoc, Rinv_l by lra.
      rewrite Rmult_1_r, Rmult_comm, <- rsum_const. rewrite <- (map_id (d0 :: dr)) at 1.
      apply rsum_le. intros x Hx. apply D; auto. }
    lra.
Qed.


Lemma noise_shift l c : noise_variance (map fstation (map (shift_sal c) l)) = noise_variance (map fstation l).
Proof.
  assert (Sh : all_same (map (shift_sal c) l) <-> all_same l).
  { unfold all_same. split; intros Q a b Ha Hb.
    - apply (Q (shift_sal c a) (shift_sal c b)); now apply in_map.
    - apply in_map_iff in Ha as (a' & <- & Ha). apply in_map_iff in Hb as (b' & <- & Hb). now apply (Q a' b'). }
  assert (Nth : forall i, (i < length l)%nat -> nth i (map (shift_sal c) l) dstation = shift_sal c (nth i l dstation)).
  { intros i Hi. now rewrite (nth_map _ _ _ _ dstation). }
  destruct (all_same_dec l) as [S|S].
  - rewrite (proj1 (noise_value l) S). apply noise_value. now apply Sh.
  - destruct (proj2 (noise_value l) S) as (nn & N & E).
    destruct (proj2 (noise_value (map (shift_sal c) l))) as (nn' & N' & E'); [now rewrite Sh|].
    cbv zeta in E, E'. rewrite E, E'. rewrite map_length in *.
    match goal with |- Ok (match somes ?a with _ => _ end) = Ok (match somes ?b with _ => _ end) =>
      assert (Q : a = b); [|now rewrite Q] end.
    apply map_ext_in. intros i Hi. apply in_seq in Hi. assert (Li : (i < length l)%nat) by lia.
    assert (Ej : nn' i = nn i).
    { apply (nearest_unique l i); auto. specialize (N' i Li).
      destruct N' as (Lj & Nj & Mj & Fj). rewrite map_length in *. rewrite !Nth in * by auto.
      split; auto. split; [exact Nj|]. split; intros k Hk Hn.
      - specialize (Mj k Hk). rewrite Nth in Mj by auto. now apply Mj.
      - specialize (Fj k Hk). rewrite Nth in Fj by lia. now apply Fj. }
    rewrite Ej. destruct (N i Li) as (Lj & _). rewrite !Nth by auto. cbn.
    destruct (st_sal (nth i l dstation)), (st_sal (nth (nn i) l dstation)); cbn; auto. f_equal. ring.
Qed.
