(* Proofs for fit_cond: break parameters and effective sample size *)
From Coq Require Import ZArith List Bool Reals Lra Lia Sorted.
From Verif Require Import Num Np NumFacts NpFacts Utilities Finders Stats FitCond Spec_Utilities Spec_Finders Spec_Stats
  LinR LeastSq Proofs_Utilities Proofs_Besthist Proofs_Fit.
Import ListNotations.
Local Open Scope R_scope.

(* ---- running sums ---- *)
Fixpoint cumR (acc : R) (u : list R) : list R :=
  match u with [] => [] | a :: r => (acc + a) :: cumR (acc + a) r end.

Lemma cumexp_fin u : forall acc, cumexp (Fin acc) (map Fin u) = map Fin (cumR acc (map exp u)).
Proof. induction u as [|a u IH]; intros acc; cbn [map cumexp cumR]; auto. cbn [nexp XR_NumT nadd XR_Num xadd]. now rewrite IH. Qed.
Lemma fnumer_fin u : fnumer (map Fin u) = map Fin (cumR 0 (map exp u)).
Proof.
  destruct u as [|a u]; [reflexivity|]. cbn [map fnumer cumR]. cbn [nexp XR_NumT]. rewrite cumexp_fin.
  now rewrite Rplus_0_l.
Qed.

Lemma cumR_range u : forall acc, (forall x, In x u -> 0 < x) -> forall v, In v (cumR acc u) ->
  acc < v <= last (cumR acc u) 0.
Proof.
  induction u as [|a u IH]; intros acc P v Hv; [destruct Hv|]. cbn [cumR] in *.
  assert (Pa : 0 < a) by (apply P; simpl; auto).
  assert (P' : forall x, In x u -> 0 < x) by (intros; apply P; simpl; auto).
  destruct u as [|b u].
  - cbn [cumR] in Hv. destruct Hv as [<-|[]]. simpl. lra.
  - assert (L : last ((acc + a) :: cumR (acc + a) (b :: u)) 0 = last (cumR (acc + a) (b :: u)) 0) by reflexivity.
    rewrite L. destruct Hv as [<-|Hv].
    + specialize (IH (acc + a) P' (acc + a + b) ltac:(cbn; auto)). lra.
    + specialize (IH (acc + a) P' v Hv). lra.
Qed.
Lemma cumR_sorted u : forall acc, (forall x, In x u -> 0 < x) -> StronglySorted Rlt (cumR acc u).
Proof.
  induction u as [|a u IH]; intros acc P; cbn [cumR]; constructor.
  - apply IH. intros; apply P; simpl; auto.
  - apply Forall_forall. intros v Hv. apply cumR_range in Hv; [lra|]. intros; apply P; simpl; auto.
Qed.

Lemma last_map {A B} (f : A -> B) l d e : l <> [] -> last (map f l) d = f (last l e).
Proof.
  induction l as [|a l IH]; intros Hl; [congruence|]. destruct l as [|b l]; [reflexivity|].
  cbn [map] in *. change (last (f a :: f b :: map f l) d) with (last (f b :: map f l) d).
  change (last (a :: b :: l) e) with (last (b :: l) e). apply IH. discriminate.
Qed.

Lemma nudge_id bs : StronglySorted Rlt bs -> nudge (map Fin bs) = map Fin bs.
Proof.
  intros S. destruct bs as [|b bs]; [reflexivity|]. cbn [map nudge]. f_equal.
  assert (G : forall a l, StronglySorted Rlt (a :: l) ->
    map (fun p : XR * XR => if neqb (nsub (snd p) (fst p)) (nofZ 0) then nadd (snd p) (nq 1 100000) else snd p)
      (combine (Fin a :: map Fin l) (map Fin l)) = map Fin l).
  { intros a l. revert a. induction l as [|c l IH]; intros a Sl; [reflexivity|].
    change (combine (Fin a :: map Fin (c :: l)) (map Fin (c :: l)))
      with ((Fin a, Fin c) :: combine (Fin c :: map Fin l) (map Fin l)).
    rewrite map_cons. rewrite IH by (now inversion Sl). cbn [map]. f_equal. cbn [fst snd].
    change (neqb (nsub (Fin c) (Fin a)) (nofZ 0)) with (Reqb (c - a) 0).
    inversion Sl as [|? ? _ F]. subst. inversion F. subst.
    assert (E : Reqb (c - a) 0 = false) by (rb; lra). now rewrite E. }
  apply G. exact S.
Qed.

Lemma decode_value xb0 xb1 u : u <> [] ->
  decode_breaks (Fin xb0, Fin xb1) (map Fin u)
  = Ok (map Fin (map (fun v => xb0 + (xb1 - xb0) / (1 + last (cumR 0 (map exp u)) 0) * v) (cumR 0 (map exp u))))
  \/ xb1 <= xb0.
Proof.
  intros Hu. destruct (Rle_dec xb1 xb0) as [|L]; [now right|left]. unfold decode_breaks.
  destruct (map Fin u) as [|x r] eqn:E; [destruct u; [congruence|discriminate]|]. rewrite <- E. clear E x r.
  rewrite fnumer_fin. set (c := cumR 0 (map exp u)).
  assert (Nc : c <> []) by (destruct u; [congruence|]; unfold c; discriminate).
  assert (Pe : forall x, In x (map exp u) -> 0 < x) by (intros x Hx; apply in_map_iff in Hx as (a & <- & _); apply exp_pos).
  assert (Lc : 0 < last c 0).
  { destruct c as [|c0 c'] eqn:Ec; [congruence|].
    assert (In c0 (cumR 0 (map exp u))) by (fold c; rewrite Ec; simpl; auto).
    apply cumR_range in H; auto. fold c in H. rewrite Ec in H. lra. }
  rewrite (last_map Fin c nnan 0) by auto. cbn [fst snd nsub nadd nofZ XR_Num xsub xadd].
  rewrite ndiv_fin by lra. f_equal. rewrite <- (nudge_id (map _ c)).
  - f_equal. rewrite !map_map. apply map_ext. intros v. reflexivity.
  - assert (S : StronglySorted Rlt c) by (apply cumR_sorted; auto).
    assert (K : 0 < (xb1 - xb0) / (1 + last c 0)).
    { apply Rmult_lt_0_compat; [lra|]. apply Rinv_0_lt_compat. lra. }
    set (k := (xb1 - xb0) / (1 + last c 0)) in *. clearbody k. clear -S K.
    induction S as [|a l S IH F]; simpl; constructor; auto.
    apply Forall_forall. intros v Hv. apply in_map_iff in Hv as (q & <- & Hq).
    rewrite Forall_forall in F. specialize (F q Hq). nra.
Qed.

Lemma decode_ordered xb0 xb1 u : u <> [] -> xb0 < xb1 ->
  exists bs, decode_breaks (Fin xb0, Fin xb1) (map Fin u) = Ok (map Fin bs)
    /\ length bs = length u /\ ordered_inside xb0 xb1 bs.
Proof.
  intros Hu Hx. destruct (decode_value xb0 xb1 u Hu) as [E|E]; [|lra]. rewrite E. clear E.
  eexists. split; [reflexivity|]. set (c := cumR 0 (map exp u)).
  assert (Pe : forall x, In x (map exp u) -> 0 < x) by (intros x Hxx; apply in_map_iff in Hxx as (a & <- & _); apply exp_pos).
  assert (R : forall v, In v c -> 0 < v <= last c 0) by (intros v; now apply cumR_range).
  split.
  { rewrite map_length. unfold c. clear. generalize 0 as acc. induction u as [|a u IH]; intros acc; simpl; auto. }
  assert (Nc : c <> []) by (destruct u; [congruence|]; unfold c; discriminate).
  assert (Lc : 0 < last c 0).
  { destruct c as [|c0 c'] eqn:Ec; [congruence|]. specialize (R c0 ltac:(simpl; auto)). lra. }
  set (k := (xb1 - xb0) / (1 + last c 0)).
  assert (K : 0 < k) by (apply Rmult_lt_0_compat; [lra|apply Rinv_0_lt_compat; lra]).
  assert (K2 : k * (1 + last c 0) = xb1 - xb0) by (unfold k; field; lra).
  split.
  - assert (S : StronglySorted Rlt c) by (apply cumR_sorted; auto). clearbody k c. clear -S K.
    induction S as [|a l S IH F]; simpl; constructor; auto.
    apply Forall_forall. intros v Hv. apply in_map_iff in Hv as (q & <- & Hq).
    rewrite Forall_forall in F. specialize (F q Hq). nra.
  - intros x Hxx. apply in_map_iff in Hxx as (v & <- & Hv). specialize (R v Hv).
    assert (0 < k * v) by nra. assert (k * v <= k * last c 0) by nra. lra.
Qed.

(* ---- encoding ---- *)
Lemma encode_fin_from a0 g s : 0 < s -> StronglySorted Rlt (a0 :: g) ->
  map (fun p : XR * XR => nlog (ndiv (nsub (snd p) (fst p)) (Fin s))) (combine (Fin a0 :: map Fin g) (map Fin g))
  = map Fin (map (fun p => ln ((snd p - fst p) / s)) (combine (a0 :: g) g)).
Proof.
  intros Hs. revert a0. induction g as [|b g IH]; intros a0 S; [reflexivity|].
  change (combine (Fin a0 :: map Fin (b :: g)) (map Fin (b :: g)))
    with ((Fin a0, Fin b) :: combine (Fin b :: map Fin g) (map Fin g)).
  change (combine (a0 :: b :: g) (b :: g)) with ((a0, b) :: combine (b :: g) g).
  inversion S as [|? ? S' F]. subst. inversion F. subst. rewrite !map_cons. rewrite IH by auto. f_equal.
  cbn [fst snd nsub XR_Num xsub]. rewrite ndiv_fin by lra. cbn [nlog XR_NumT].
  destruct (Rlt_dec 0 ((b - a0) / s)) as [|N]; [reflexivity|].
  exfalso. apply N. apply Rmult_lt_0_compat; [lra|]. now apply Rinv_0_lt_compat.
Qed.

Lemma cum_telescope a0 g s acc : 0 < s -> StronglySorted Rlt (a0 :: g) ->
  cumR acc (map exp (map (fun p => ln ((snd p - fst p) / s)) (combine (a0 :: g) g)))
  = map (fun b => acc + (b - a0) / s) g.
Proof.
  intros Hs. revert a0 acc. induction g as [|b g IH]; intros a0 acc S; [reflexivity|].
  change (combine (a0 :: b :: g) (b :: g)) with ((a0, b) :: combine (b :: g) g).
  inversion S as [|? ? S' F]. subst. inversion F. subst. rewrite !map_cons. cbn [fst snd].
  assert (P : 0 < (b - a0) / s) by (apply Rmult_lt_0_compat; [lra|]; now apply Rinv_0_lt_compat).
  cbn [cumR]. rewrite exp_ln by auto. f_equal.
  rewrite IH by auto. apply map_ext. intros q. field. lra.
Qed.

Lemma last_in_R (l : list R) d : l <> [] -> In (last l d) l.
Proof.
  induction l as [|a l IH]; intros Hl; [congruence|]. destruct l as [|b l]; [simpl; auto|].
  right. apply IH. discriminate.
Qed.

Lemma encode_decode xb0 xb1 g : g <> [] -> xb0 < xb1 -> ordered_inside (-1) 1 g ->
  exists u, encode_breaks (map Fin g) = map Fin u /\ length u = length g /\
    decode_breaks (Fin xb0, Fin xb1) (map Fin u)
    = Ok (map Fin (map (fun b => xb0 + (xb1 - xb0) * ((b + 1) / 2)) g)).
Proof.
  intros Hg Hx [S B]. set (s := 1 - last g 0).
  assert (Hs : 0 < s) by (unfold s; specialize (B _ (last_in_R g 0 Hg)); lra).
  assert (S1 : StronglySorted Rlt (-1 :: g)).
  { constructor; auto. apply Forall_forall. intros x Hx'. specialize (B x Hx'). lra. }
  set (u := map (fun p => ln ((snd p - fst p) / s)) (combine (-1 :: g) g)).
  assert (Nu : u <> []) by (unfold u; destruct g; [congruence|discriminate]).
  assert (Eu : encode_breaks (map Fin g) = map Fin u).
  { unfold encode_breaks, u. rewrite <- encode_fin_from by auto.
    replace (last (nofZ (-1) :: map Fin g) nnan) with (Fin (last g 0)).
    - reflexivity.
    - destruct g as [|b g']; [congruence|].
      change (last (nofZ (-1) :: map Fin (b :: g')) nnan) with (last (map Fin (b :: g')) nnan).
      symmetry. apply last_map. discriminate. }
  assert (Lu : length u = length g).
  { unfold u. rewrite map_length, combine_length. cbn [length]. lia. }
  exists u. split; auto. split; auto.
  destruct (decode_value xb0 xb1 u Nu) as [E|E]; [|lra]. rewrite E. clear E.
  unfold u. rewrite cum_telescope by auto. rewrite (last_map _ g 0 0) by auto. rewrite !map_map. f_equal. apply map_ext. intros b. f_equal.
  unfold s in *. set (q := last g 0) in *. clearbody q. field. repeat split; lra.
Qed.

Lemma decode_onto xb0 xb1 bs : bs <> [] -> xb0 < xb1 -> ordered_inside xb0 xb1 bs ->
  exists u, length u = length bs /\ decode_breaks (Fin xb0, Fin xb1) (map Fin u) = Ok (map Fin bs).
Proof.
  intros Hb Hx [S B].
  set (g := map (fun b => 2 * (b - xb0) / (xb1 - xb0) - 1) bs).
  assert (Hg : g <> []) by (unfold g; destruct bs; [congruence|discriminate]).
  assert (K : 0 < / (xb1 - xb0)) by (apply Rinv_0_lt_compat; lra).
  assert (K1 : (xb1 - xb0) * / (xb1 - xb0) = 1) by (field; lra).
  assert (Og : ordered_inside (-1) 1 g).
  { split.
    - unfold g. clear Hb B Hg. induction S as [|a l S IH F]; simpl; constructor; auto.
      apply Forall_forall. intros v Hv. apply in_map_iff in Hv as (q & <- & Hq).
      rewrite Forall_forall in F. specialize (F q Hq). unfold Rdiv. nra.
    - intros x Hxx. apply in_map_iff in Hxx as (v & <- & Hv). specialize (B v Hv). unfold Rdiv. nra. }
  destruct (encode_decode xb0 xb1 g Hg Hx Og) as (u & _ & Lu & E).
  exists u. split; [rewrite Lu; unfold g; apply map_length|]. rewrite E. do 2 f_equal. unfold g. rewrite map_map.
  rewrite <- (map_id bs) at 2. apply map_ext. intros b. field. lra.
Qed.

(* ---- effective sample size ---- *)
Lemma eff_dof_value n (K : nat -> nat -> XR) k : finmat n n K k ->
  (forall i, (i < n)%nat -> row_sum n k i <> 0) ->
  eff_dof n K = Fin (bsum n (fun i => 1 / row_sum n k i)).
Proof.
  intros HK Hs. unfold eff_dof, bsum. rewrite <- nsum_fin, map_map. f_equal. apply map_ext_in.
  intros i Hi. apply in_seq in Hi.
  assert (E : nsum (map (fun j => nmul (K i j) (nofZ 1)) (seq 0 n)) = Fin (row_sum n k i)).
  { unfold row_sum, bsum. rewrite <- nsum_fin, map_map. f_equal. apply map_ext_in. intros j Hj. apply in_seq in Hj.
    rewrite HK by lia. cbn. f_equal. ring. }
  rewrite E. cbn [nofZ XR_Num]. rewrite ndiv_fin by (apply Hs; lia). reflexivity.
Qed.

Lemma row_sum_range n k i : correlation_matrix n k -> (i < n)%nat -> 1 <= row_sum n k i <= INR n.
Proof.
  intros [D B] Hi. unfold row_sum. split.
  - rewrite <- (D i Hi).
    rewrite <- (bsum_delta n i (fun j => k i j) Hi). apply bsum_le. intros j Hj.
    unfold delta. specialize (B i j Hi Hj). destruct (Nat.eqb i j); lra.
  - replace (INR n) with (bsum n (fun _ => 1)) by (rewrite bsum_const; ring). apply bsum_le.
    intros j Hj. apply B; auto.
Qed.

Lemma eff_dof_range n K k : (0 < n)%nat -> finmat n n K k -> correlation_matrix n k ->
  exists v, eff_dof n K = Fin v /\ 1 <= v <= INR n.
Proof.
  intros Hn HK HC. eexists. split; [apply (eff_dof_value n K k HK)|].
  - intros i Hi. pose proof (row_sum_range n k i HC Hi). lra.
  - assert (0 < INR n) by (apply lt_0_INR; lia). split.
    + apply Rle_trans with (bsum n (fun _ => 1 / INR n)); [right; rewrite bsum_const; field; lra|].
      apply bsum_le. intros i Hi. pose proof (row_sum_range n k i HC Hi).
      unfold Rdiv. rewrite !Rmult_1_l. apply Rinv_le_contravar; lra.
    + apply Rle_trans with (bsum n (fun _ => 1)); [|right; rewrite bsum_const; ring].
      apply bsum_le. intros i Hi. pose proof (row_sum_range n k i HC Hi).
      unfold Rdiv. rewrite Rmult_1_l. rewrite <- Rinv_1. apply Rinv_le_contravar; lra.
Qed.
Lemma eff_dof_independent n K : finmat n n K delta -> eff_dof n K = Fin (INR n).
Proof.
  intros HK.
  assert (R : forall i, (i < n)%nat -> row_sum n delta i = 1).
  { intros i Hi. unfold row_sum. rewrite (bsum_ext n _ (fun j => delta i j * 1)) by (intros; ring).
    apply (bsum_delta n i (fun _ => 1) Hi). }
  rewrite (eff_dof_value n K delta HK) by (intros i Hi; rewrite R by auto; lra).
  f_equal. rewrite (bsum_ext n _ (fun _ => 1)) by (intros i Hi; rewrite R by auto; field).
  rewrite bsum_const. ring.
Qed.
Lemma eff_dof_correlated n K : (0 < n)%nat -> finmat n n K (fun _ _ => 1) -> eff_dof n K = Fin 1.
Proof.
  intros Hn HK. assert (0 < INR n) by (apply lt_0_INR; lia).
  assert (R : forall i, row_sum n (fun _ _ => 1) i = INR n).
  { intros i. unfold row_sum. rewrite bsum_const. ring. }
  rewrite (eff_dof_value n K _ HK) by (intros i Hi; rewrite R; lra).
  f_equal. rewrite (bsum_ext n _ (fun _ => 1 / INR n)) by (intros i Hi; now rewrite R).
  rewrite bsum_const. field. lra.
Qed.
