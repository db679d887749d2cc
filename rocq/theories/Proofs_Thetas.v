(* Proofs for find_10thetas: masking, range check, nearest rows, selection *)
From Coq Require Import ZArith List Bool Reals Lra Lia Permutation Sorted FunctionalExtensionality.
From Flocq Require Import Core.Raux.
From Verif Require Import Num Np NumFacts NpFacts Finders Spec_Utilities Spec_Finders Proofs_Besthist.
Import ListNotations.
Local Open Scope R_scope.

(* ---- minimum and maximum of samples ---- *)
Lemma in_somes {A} (l : list (option A)) x : In x (somes l) <-> In (Some x) l.
Proof.
  induction l as [|[y|] l IH]; simpl; [tauto| |].
  - rewrite IH. split; intros [E|E]; auto; left; congruence.
  - rewrite IH. split; auto. intros [E|E]; [discriminate|auto].
Qed.
Lemma drop_nan_oX l : drop_nan (map oX l) = map Fin (somes l).
Proof. induction l as [|[y|] l IH]; cbn; auto. f_equal. exact IH. Qed.
Lemma drop_nan_fin l : drop_nan (map Fin l) = map Fin l.
Proof. induction l as [|x l IH]; cbn; auto. f_equal. exact IH. Qed.

Lemma min_from_fin m l : exists v, min_from (Fin m) (map Fin l) = Fin v /\ In v (m :: l) /\ forall x, In x (m :: l) -> v <= x.
Proof.
  revert m; induction l as [|a l IH]; intros m.
  - exists m. cbn. split; auto. split; auto. intros x [<-|[]]. lra.
  - unfold min_from in *. cbn [map fold_left]. cbn [nltb XR_Num xltb]. destruct (Rltb a m) eqn:E.
    + apply Rltb_true in E. destruct (IH a) as (v & Ev & Iv & Lv). exists v. split; auto. split; [now right|].
      intros x [<-|Hx]; auto. specialize (Lv a (or_introl eq_refl)). lra.
    + apply Rltb_false in E. destruct (IH m) as (v & Ev & Iv & Lv). exists v. split; auto. split.
      * destruct Iv as [->|Iv]; [now left|right; now right].
      * intros x [<-|[<-|Hx]]; [apply Lv; now left| |apply Lv; now right].
        specialize (Lv m (or_introl eq_refl)). lra.
Qed.
Lemma max_from_fin m l : exists v, max_from (Fin m) (map Fin l) = Fin v /\ In v (m :: l) /\ forall x, In x (m :: l) -> x <= v.
Proof.
  revert m; induction l as [|a l IH]; intros m.
  - exists m. cbn. split; auto. split; auto. intros x [<-|[]]. lra.
  - unfold max_from in *. cbn [map fold_left]. cbn [nltb XR_Num xltb]. destruct (Rltb m a) eqn:E.
    + apply Rltb_true in E. destruct (IH a) as (v & Ev & Iv & Lv). exists v. split; auto. split; [now right|].
      intros x [<-|Hx]; auto. specialize (Lv a (or_introl eq_refl)). lra.
    + apply Rltb_false in E. destruct (IH m) as (v & Ev & Iv & Lv). exists v. split; auto. split.
      * destruct Iv as [->|Iv]; [now left|right; now right].
      * intros x [<-|[<-|Hx]]; [apply Lv; now left| |apply Lv; now right].
        specialize (Lv m (or_introl eq_refl)). lra.
Qed.

Lemma nanmin_oX l :
  (somes l = [] /\ nanmin (map oX l) = NaN) \/
  exists m, nanmin (map oX l) = Fin m /\ In (Some m) l /\ forall x, In (Some x) l -> m <= x.
Proof.
  unfold nanmin. rewrite drop_nan_oX. destruct (somes l) as [|a s] eqn:E; [left; auto|right].
  cbn [map]. destruct (min_from_fin a s) as (v & Ev & Iv & Lv). exists v. split; auto.
  rewrite <- E in Iv. split; [now apply in_somes|]. intros x Hx. apply Lv. rewrite <- E. now apply in_somes.
Qed.
Lemma nanmax_oX l :
  (somes l = [] /\ nanmax (map oX l) = NaN) \/
  exists m, nanmax (map oX l) = Fin m /\ In (Some m) l /\ forall x, In (Some x) l -> x <= m.
Proof.
  unfold nanmax. rewrite drop_nan_oX. destruct (somes l) as [|a s] eqn:E; [left; auto|right].
  cbn [map]. destruct (max_from_fin a s) as (v & Ev & Iv & Lv). exists v. split; auto.
  rewrite <- E in Iv. split; [now apply in_somes|]. intros x Hx. apply Lv. rewrite <- E. now apply in_somes.
Qed.

(* ---- masking ---- *)
Definition disc (lt gt : option R) (o : option R) : bool :=
  discard (option_map Fin lt) (option_map Fin gt) (oX o).
Definition keptb (d : series) (i j : nat) : bool :=
  match d_la d i j with None => false | Some _ => true end
  && negb (disc (d_tlt d) (d_tgt d) (d_ptmp d i j)) && negb (disc (d_plt d) (d_pgt d) (d_pres d i j)).
Definition mask (d : series) (m : nat -> nat -> option R) (i j : nat) : option R :=
  if keptb d i j then m i j else None.

Lemma disc_spec lt gt o : disc lt gt o = false <-> forall x, o = Some x -> window_ok lt gt x.
Proof.
  unfold disc, discard. destruct lt as [l|], gt as [g|]; cbn [option_map]; destruct o as [x|]; cbn [oX window_ok].
  - split.
    + intros E y Hy. injection Hy as <-. revert E. cbn [nltb XR_Num xltb].
      destruct (Rltb l g) eqn:E1; rb; intros E; rb; try lra.
      * apply andb_false_iff in E. destruct E; rb; lra.
      * apply orb_false_iff in E as [A B]. rb. lra.
    + intros Hw. specialize (Hw x eq_refl). cbn [nltb XR_Num xltb].
      destruct (Rltb l g) eqn:E1; rb.
      * apply andb_false_iff. destruct Hw as [[_ [H|H]]|[H _]]; [right|left|lra]; now apply Rltb_false.
      * apply orb_false_iff. destruct Hw as [[H _]|[_ [H H']]]; [lra|]. split; now apply Rltb_false.
  - split; [intros _ y Hy; discriminate|intros _]. cbn. destruct (Rltb l g); reflexivity.
  - cbn. split.
    + intros E y Hy. injection Hy as <-. rb. lra.
    + intros Hw. specialize (Hw x eq_refl). now apply Rltb_false.
  - split; [intros _ y Hy; discriminate|reflexivity].
  - cbn. split.
    + intros E y Hy. injection Hy as <-. rb. lra.
    + intros Hw. specialize (Hw x eq_refl). now apply Rltb_false.
  - split; [intros _ y Hy; discriminate|reflexivity].
  - split; auto.
  - split; auto.
Qed.

Lemma keptb_spec d i j : keptb d i j = true <-> kept d i j.
Proof.
  unfold keptb, kept. rewrite !andb_true_iff, !negb_true_iff, !disc_spec.
  destruct (d_la d i j); split; intros H; try tauto.
  - repeat split; try tauto. discriminate.
  - exfalso. destruct H as [[H _] _]. discriminate.
Qed.

Lemma mask_some d m i j x : mask d m i j = Some x <-> kept d i j /\ m i j = Some x.
Proof.
  unfold mask. destruct (keptb d i j) eqn:E.
  - rewrite <- keptb_spec. tauto.
  - rewrite <- keptb_spec. split; [discriminate|]. intros [H _]. congruence.
Qed.

Lemma sample_mask d i j x : sample d i j x <-> mask d (d_ptmp d) i j = Some x.
Proof. unfold sample. now rewrite mask_some. Qed.

Definition oM (m : nat -> nat -> option R) : mat (T := XR) := fun i j => oX (m i j).

Lemma exclude_eval d :
  exclude (oM (d_la d)) (option_map Fin (d_tlt d)) (option_map Fin (d_tgt d)) (option_map Fin (d_plt d)) (option_map Fin (d_pgt d))
    (oM (d_pres d), oM (d_sal d), oM (d_ptmp d))
  = (oM (mask d (d_pres d)), oM (mask d (d_sal d)), oM (mask d (d_ptmp d))).
Proof.
  unfold exclude.
  assert (N : forall lt gt, disc lt gt None = false).
  { intros. apply disc_spec. discriminate. }
  assert (G : forall m i j, blank (fun i j => discard (option_map Fin (d_plt d)) (option_map Fin (d_pgt d))
      (blank (fun i j => discard (option_map Fin (d_tlt d)) (option_map Fin (d_tgt d))
         (blank (fun i j => nisnan (oM (d_la d) i j)) (oM (d_ptmp d)) i j))
         (blank (fun i j => nisnan (oM (d_la d) i j)) (oM (d_pres d))) i j))
      (blank (fun i j => discard (option_map Fin (d_tlt d)) (option_map Fin (d_tgt d))
         (blank (fun i j => nisnan (oM (d_la d) i j)) (oM (d_ptmp d)) i j))
         (blank (fun i j => nisnan (oM (d_la d) i j)) (oM m))) i j = oM (mask d m) i j).
  { intros m i j. unfold blank, oM, mask, keptb. destruct (d_la d i j) as [la|].
    - cbn [oX nisnan XR_Num andb].
      fold (disc (d_tlt d) (d_tgt d) (d_ptmp d i j)). destruct (disc (d_tlt d) (d_tgt d) (d_ptmp d i j)) eqn:E.
      + cbn [negb andb]. destruct (discard (option_map Fin (d_plt d)) (option_map Fin (d_pgt d)) nnan); reflexivity.
      + fold (disc (d_plt d) (d_pgt d) (d_pres d i j)). destruct (disc (d_plt d) (d_pgt d) (d_pres d i j)); reflexivity.
    - cbn [oX nisnan XR_Num andb negb nnan].
      pose proof (N (d_tlt d) (d_tgt d)) as N1. pose proof (N (d_plt d) (d_pgt d)) as N2. unfold disc in N1, N2. cbn [oX] in N1, N2.
      rewrite N1, N2. reflexivity. }
  f_equal; [f_equal|].
  - extensionality i; extensionality j. apply G.
  - extensionality i; extensionality j. apply G.
  - extensionality i; extensionality j. apply G.
Qed.

(* ---- flat matrices ---- *)
Lemma mflat_oM nr nc m : mflat nr nc (oM m) = map oX (flat_map (fun i => map (m i) (seq 0 nc)) (seq 0 nr)).
Proof.
  unfold mflat, mrow, oM. induction (seq 0 nr) as [|i l IH]; cbn [flat_map]; auto.
  rewrite map_app, <- IH, map_map. reflexivity.
Qed.
Lemma mcol_oM nr m j : mcol nr (oM m) j = map oX (map (fun i => m i j) (seq 0 nr)).
Proof. unfold mcol, oM. now rewrite map_map. Qed.

Lemma in_flat nr nc (m : nat -> nat -> option R) x :
  In (Some x) (flat_map (fun i => map (m i) (seq 0 nc)) (seq 0 nr)) <-> exists i j, (i < nr)%nat /\ (j < nc)%nat /\ m i j = Some x.
Proof.
  rewrite in_flat_map. split.
  - intros (i & Hi & Hx). apply in_map_iff in Hx as (j & E & Hj). apply in_seq in Hi, Hj. exists i, j. repeat split; auto; lia.
  - intros (i & j & Hi & Hj & E). exists i. split; [apply in_seq; lia|]. apply in_map_iff. exists j. split; auto. apply in_seq. lia.
Qed.
Lemma in_col nr (m : nat -> nat -> option R) j x :
  In (Some x) (map (fun i => m i j) (seq 0 nr)) <-> exists i, (i < nr)%nat /\ m i j = Some x.
Proof.
  rewrite in_map_iff. split.
  - intros (i & E & Hi). apply in_seq in Hi. exists i. split; auto; lia.
  - intros (i & Hi & E). exists i. split; auto. apply in_seq. lia.
Qed.

(* ---- range check (C27) ---- *)
Lemma div10 a : ndiv (Fin a) (Fin 10) = Fin (a / 10).
Proof. apply ndiv_fin. lra. Qed.

Lemma range_check (nr nc : nat) (m : nat -> nat -> option R) :
  (nltb (ndiv (nceil (nmul (nanmin (mflat nr nc (oM m))) (nofZ 10))) (nofZ 10))
       (ndiv (nfloor (nmul (nanmax (mflat nr nc (oM m))) (nofZ 10))) (nofZ 10))) = true
  <-> exists i j i' j' x y (a b : Z), (i < nr)%nat /\ (j < nc)%nat /\ (i' < nr)%nat /\ (j' < nc)%nat
    /\ m i j = Some x /\ m i' j' = Some y /\ (a < b)%Z /\ x <= IZR a / 10 /\ IZR b / 10 <= y.
Proof.
  rewrite mflat_oM. set (l := flat_map _ _).
  destruct (nanmin_oX l) as [[E Em]|(lo & Em & Il & Hl)].
  - rewrite Em. split.
    + cbn. destruct (nanmax (map oX l)); cbn; discriminate.
    + intros (i & j & _ & _ & x & _ & _ & _ & Hi & Hj & _ & _ & Hx & _). exfalso.
      assert (In x (somes l)) by (apply in_somes, in_flat; eauto). rewrite E in H. destruct H.
  - rewrite Em. destruct (nanmax_oX l) as [[E _]|(hi & EM & Ih & Hh)].
    { exfalso. apply in_somes in Il. rewrite E in Il. destruct Il. }
    rewrite EM. 
    change (nceil (nmul (Fin lo) (nofZ 10))) with (Fin (IZR (Zceil (lo * 10)))).
    change (nfloor (nmul (Fin hi) (nofZ 10))) with (Fin (IZR (Zfloor (hi * 10)))).
    change (@nofZ XR _ 10) with (Fin 10). rewrite !div10. cbn [nltb XR_Num xltb]. rewrite Rltb_true.
    apply in_flat in Il as (i & j & Hi & Hj & Hlo). apply in_flat in Ih as (i' & j' & Hi' & Hj' & Hhi).
    pose proof (Zceil_ub (lo * 10)). pose proof (Zfloor_lb (hi * 10)). split.
    + intros Hlt. exists i, j, i', j', lo, hi, (Zceil (lo * 10)), (Zfloor (hi * 10)).
      repeat (split; [assumption|]). split; [apply lt_IZR; lra|]. lra.
    + intros (a1 & b1 & a2 & b2 & x & y & a & b & A1 & B1 & A2 & B2 & Ex & Ey & Hab & Hx & Hy).
      assert (Lx : lo <= x) by (apply Hl, in_flat; eauto).
      assert (Ly : y <= hi) by (apply Hh, in_flat; eauto 6).
      assert (Zceil (lo * 10) <= a)%Z by (apply Zceil_glb; lra).
      assert (b <= Zfloor (hi * 10))%Z by (apply Zfloor_lub; lra).
      assert (IZR (Zceil (lo * 10)) < IZR (Zfloor (hi * 10))) by (apply IZR_lt; lia). lra.
Qed.

(* ---- nearest row (C25) ---- *)
Lemma argwhere_first {A} (dflt : A) p l i r : argwhere p l = i :: r ->
  (i < length l)%nat /\ p (nth i l dflt) = true /\ forall k, (k < i)%nat -> p (nth k l dflt) = false.
Proof.
  intros E. pose proof (argwhere_sorted p l) as S. pose proof (argwhere_spec dflt p l) as M. rewrite E in S, M.
  destruct (proj1 (M i) (or_introl eq_refl)) as [Li Pi]. split; auto. split; auto.
  intros k Hk. destruct (p (nth k l dflt)) eqn:Ek; auto. exfalso.
  destruct (proj2 (M k)) as [Ek'|Hin]; [split; auto; lia|lia|].
  inversion S as [|? ? _ F]; subst. rewrite Forall_forall in F. specialize (F k Hin). lia.
Qed.

Lemma forallb_somes l : forallb nisnan (map oX l) = true <-> somes l = [].
Proof.
  induction l as [|[x|] l IH]; cbn; [tauto| |exact IH]. split; discriminate.
Qed.

Lemma argwhere_min (l : list (option R)) : somes l <> [] ->
  exists i m r, argwhere (fun d => neqb d (nanmin (map oX l))) (map oX l) = i :: r
    /\ nanmin (map oX l) = Fin m /\ nth i l None = Some m /\ (i < length l)%nat
    /\ (forall k x, (k < length l)%nat -> nth k l None = Some x -> m <= x /\ ((k < i)%nat -> m < x)).
Proof.
  intros Hne. destruct (nanmin_oX l) as [[E _]|(m & Em & Im & Lm)]; [congruence|]. rewrite Em.
  destruct (argwhere (fun d => neqb d (Fin m)) (map oX l)) as [|i r] eqn:Ea.
  - exfalso. apply In_nth with (d := None) in Im as (k & Hk & Ek).
    assert (H : In k (argwhere (fun d => neqb d (Fin m)) (map oX l))).
    { apply (argwhere_spec (oX None)). rewrite map_length, map_nth, Ek. split; auto. cbn. now apply Reqb_true. }
    rewrite Ea in H. destruct H.
  - exists i, m, r. split; auto. split; auto.
    destruct (argwhere_first (oX None) _ _ _ _ Ea) as (Li & Pi & Fi). rewrite map_length in Li. rewrite map_nth in Pi.
    assert (Ei : nth i l None = Some m).
    { destruct (nth i l None) as [x|]; cbn in Pi; [|discriminate]. apply Reqb_true in Pi. congruence. }
    split; auto. split; auto. intros k x Hk Ek.
    assert (Hx : m <= x) by (apply Lm; rewrite <- Ek; now apply nth_In).
    split; auto. intros Hki. specialize (Fi k Hki). rewrite map_nth, Ek in Fi. cbn in Fi. apply Reqb_false in Fi. lra.
Qed.

Lemma straddle_check nr m j (theta : XR) :
  (nltb theta (nanmax (mcol nr (oM m) j)) && nltb (nanmin (mcol nr (oM m) j)) theta) = true
  <-> exists th a b x y, theta = Fin th /\ (a < nr)%nat /\ (b < nr)%nat /\ m a j = Some x /\ m b j = Some y /\ x < th < y.
Proof.
  rewrite mcol_oM. set (l := map _ (seq 0 nr)).
  destruct (nanmin_oX l) as [[E Em]|(lo & Em & Il & Hl)].
  - rewrite Em. split.
    + rewrite andb_true_iff. cbn. intros [_ H]. destruct theta; discriminate.
    + intros (th & a & b & x & y & _ & Ha & _ & Ea & _). exfalso.
      assert (In x (somes l)) by (apply in_somes, in_col; eauto). rewrite E in H. destruct H.
  - destruct (nanmax_oX l) as [[E _]|(hi & EM & Ih & Hh)].
    { exfalso. apply in_somes in Il. rewrite E in Il. destruct Il. }
    rewrite Em, EM, andb_true_iff.
    apply in_col in Il as (i & Hi & Hlo). apply in_col in Ih as (i' & Hi' & Hhi). split.
    + intros [A B]. destruct theta as [th| | |]; cbn in A, B; try discriminate. rb.
      exists th, i, i', lo, hi. repeat split; auto; lra.
    + intros (th & a & b & x & y & -> & Ha & Hb & Ea & Eb & Hxy). cbn. rewrite !Rltb_true.
      assert (lo <= x) by (apply Hl, in_col; eauto). assert (y <= hi) by (apply Hh, in_col; eauto). lra.
Qed.

Definition row_diff (m : nat -> nat -> option R) (th : R) (j i : nat) : option R :=
  option_map (fun x => Rabs (x - th)) (m i j).

Lemma diff_oX nr m th j :
  map (fun x => nabs (nsub x (Fin th))) (mcol nr (oM m) j) = map oX (map (row_diff m th j) (seq 0 nr)).
Proof.
  rewrite mcol_oM, !map_map. apply map_ext. intros i. unfold row_diff. destruct (m i j); reflexivity.
Qed.

Lemma theta_index_spec nr m theta j :
  match theta_index nr (oM m) theta j with
  | Some k => exists th x, theta = Fin th /\ (k < nr)%nat /\ m k j = Some x
      /\ (exists a b y z, (a < nr)%nat /\ (b < nr)%nat /\ m a j = Some y /\ m b j = Some z /\ y < th < z)
      /\ forall k' x', (k' < nr)%nat -> m k' j = Some x' ->
           Rabs (x - th) <= Rabs (x' - th) /\ ((k' < k)%nat -> Rabs (x - th) < Rabs (x' - th))
  | None => forall th, theta = Fin th ->
      ~ exists a b x y, (a < nr)%nat /\ (b < nr)%nat /\ m a j = Some x /\ m b j = Some y /\ x < th < y
  end.
Proof.
  unfold theta_index. pose proof (straddle_check nr m j theta) as SC.
  destruct (nltb theta (nanmax (mcol nr (oM m) j)) && nltb (nanmin (mcol nr (oM m) j)) theta) eqn:E.
  - destruct (proj1 SC eq_refl) as (th & a & b & x & y & -> & Ha & Hb & Ea & Eb & Hxy).
    rewrite diff_oX. set (l := map (row_diff m th j) (seq 0 nr)).
    assert (Hs : somes l <> []).
    { intros C. assert (Hi : In (Rabs (x - th)) (somes l)).
      { apply in_somes. apply in_map_iff. exists a. split; [unfold row_diff; now rewrite Ea|apply in_seq; lia]. }
      rewrite C in Hi. destruct Hi. }
    destruct (forallb nisnan (map oX l)) eqn:Ef; [apply forallb_somes in Ef; contradiction|].
    destruct (argwhere_min l Hs) as (k & v & r & Ek & _ & Ev & Lk & Hk). rewrite Ek.
    assert (Ll : length l = nr) by (unfold l; now rewrite map_length, seq_length). rewrite Ll in *.
    assert (Gl : forall i, (i < nr)%nat -> nth i l None = row_diff m th j i).
    { intros i Hi. unfold l. rewrite (nth_map _ _ _ _ 0%nat) by (now rewrite seq_length). now rewrite seq_nth. }
    rewrite Gl in Ev by auto. unfold row_diff in Ev. destruct (m k j) as [xk|] eqn:Exk; [|discriminate].
    cbn in Ev. injection Ev as <-.
    exists th, xk. split; auto. split; auto. split; auto. split; [exists a, b, x, y; repeat (split; [assumption|]); assumption|].
    intros k' x' Hk' Ek'. apply (Hk k' (Rabs (x' - th))); auto. rewrite Gl by auto. unfold row_diff. now rewrite Ek'.
  - intros th -> (a & b & x & y & Ha & Hb & Ea & Eb & Hxy).
    assert (false = true); [|discriminate]. apply SC. exists th, a, b, x, y. repeat (split; [assumption || reflexivity|]); assumption.
Qed.

(* ---- selection of the ten levels (C24) ---- *)
Definition nonnan (v : list XR) : nat := length (drop_nan v).

Lemma drop_nan_set_nth (v : list XR) i : (i < length v)%nat -> nisnan (nth i v NaN) = false ->
  S (length (drop_nan (set_nth i NaN v))) = length (drop_nan v).
Proof.
  revert i. induction v as [|x v IH]; intros i Hi Hn; [simpl in Hi; lia|]. destruct i as [|i].
  - cbn [set_nth nth] in *. cbn [drop_nan filter]. change (nisnan NaN) with true. rewrite Hn. cbn [negb length]. reflexivity.
  - cbn [set_nth nth length] in *. specialize (IH i ltac:(lia) Hn). cbn [drop_nan filter] in *.
    unfold drop_nan in *. destruct (nisnan x); cbn [negb length]; lia.
Qed.

Lemma xle_trans a b c : xleb a b = true -> xleb b c = true -> xleb a c = true.
Proof. destruct a, b, c; cbn; auto; try discriminate; rewrite ?Rleb_true; lra. Qed.
Lemma xle_refl a : nisnan a = false -> xleb a a = true.
Proof. destruct a; cbn; auto; try discriminate. intros _. apply Rleb_true. lra. Qed.
Lemma xle_nlt a b : nisnan a = false -> nisnan b = false -> xltb b a = false -> xleb a b = true.
Proof. destruct a, b; cbn; auto; try discriminate. rewrite Rltb_false, Rleb_true. auto. Qed.
Lemma xlt_le a b : xltb a b = true -> xleb a b = true.
Proof. destruct a, b; cbn; auto; try discriminate. rewrite Rltb_true, Rleb_true. lra. Qed.

Lemma min_from_xr m l : nisnan m = false -> (forall x, In x l -> nisnan x = false) ->
  In (min_from m l) (m :: l) /\ forall x, In x (m :: l) -> xleb (min_from m l) x = true.
Proof.
  revert m. induction l as [|a l IH]; intros m Hm Hl.
  - cbn. split; auto. intros x [<-|[]]. now apply xle_refl.
  - unfold min_from in *. cbn [fold_left]. assert (Ha : nisnan a = false) by (apply Hl; now left).
    cbn [nltb XR_Num]. destruct (xltb a m) eqn:E.
    + destruct (IH a Ha) as [I L]; [intros; apply Hl; now right|]. split; [now right|].
      intros x [<-|Hx]; auto. eapply xle_trans; [apply L; now left|]. now apply xlt_le.
    + destruct (IH m Hm) as [I L]; [intros; apply Hl; now right|]. split.
      * destruct I as [I|I]; [now left|right; now right].
      * intros x [<-|[<-|Hx]]; [apply L; now left| |apply L; now right].
        eapply xle_trans; [apply L; now left|]. now apply xle_nlt.
Qed.

Lemma nanmin_xr v : drop_nan v <> [] ->
  In (nanmin v) v /\ nisnan (nanmin v) = false /\ forall x, In x v -> nisnan x = false -> xleb (nanmin v) x = true.
Proof.
  intros Hne. unfold nanmin.
  assert (G : forall x, In x (drop_nan v) <-> In x v /\ nisnan x = false).
  { intros x. unfold drop_nan. rewrite filter_In, negb_true_iff. tauto. }
  destruct (drop_nan v) as [|a s] eqn:E; [congruence|].
  destruct (min_from_xr a s) as [I L].
  - apply (proj1 (G a)). now left.
  - intros x Hx. apply (proj1 (G x)). now right.
  - apply G in I. split; [tauto|]. split; [tauto|]. intros x Hx Hn. apply L, G. auto.
Qed.

Lemma forallb_nan v : forallb nisnan v = true <-> drop_nan v = [].
Proof.
  induction v as [|x v IH]; cbn [forallb drop_nan filter]; [tauto|].
  fold (drop_nan v). destruct (nisnan x); cbn [negb andb]; [exact IH|]. split; discriminate.
Qed.

Lemma xeqb_refl a : nisnan a = false -> xeqb a a = true.
Proof. destruct a; cbn; auto; try discriminate. intros _. now apply Reqb_true. Qed.
Lemma xeqb_true a b : xeqb a b = true -> a = b.
Proof. destruct a, b; cbn; auto; try discriminate. rewrite Reqb_true. congruence. Qed.

Lemma select_none k v : drop_nan v = [] -> select_min k v = repeat None k.
Proof.
  intros E. induction k as [|k IH]; cbn [select_min repeat]; auto.
  apply forallb_nan in E. rewrite E, IH. reflexivity.
Qed.

Lemma select_min_spec k (v : list XR) :
  exists idx, select_min k v = (map Some idx ++ repeat None (k - length idx))%list
    /\ length idx = Nat.min k (nonnan v)
    /\ NoDup idx
    /\ (forall i, In i idx -> (i < length v)%nat /\ nisnan (nth i v NaN) = false)
    /\ (forall a b, (a < b < length idx)%nat -> xleb (nth (nth a idx 0%nat) v NaN) (nth (nth b idx 0%nat) v NaN) = true)
    /\ (forall i j, In i idx -> (j < length v)%nat -> ~ In j idx -> nisnan (nth j v NaN) = false ->
          xleb (nth i v NaN) (nth j v NaN) = true).
Proof.
  revert v. induction k as [|k IH]; intros v.
  - exists []. cbn. repeat split; auto; try contradiction; try lia. constructor.
  - destruct (list_eq_nil_dec (drop_nan v)) as [E|Hne].
    { exists []. rewrite select_none by auto. unfold nonnan. rewrite E. cbn. repeat split; auto; try contradiction; try lia. constructor. }
    cbn [select_min]. destruct (forallb nisnan v) eqn:Ef; [apply forallb_nan in Ef; contradiction|].
    destruct (nanmin_xr v Hne) as (Im & Nm & Lm). set (m := nanmin v) in *.
    destruct (argwhere (fun x => neqb x m) v) as [|i r] eqn:Ea.
    { exfalso. apply In_nth with (d := NaN) in Im as (q & Hq & Eq).
      assert (H : In q (argwhere (fun x => neqb x m) v)).
      { apply (argwhere_spec NaN). split; auto. rewrite Eq. now apply xeqb_refl. }
      rewrite Ea in H. destruct H. }
    destruct (argwhere_first NaN _ _ _ _ Ea) as (Li & Pi & _). apply xeqb_true in Pi.
    assert (Ni : nisnan (nth i v NaN) = false) by (now rewrite Pi).
    destruct (IH (set_nth i NaN v)) as (idx & Es & Ll & Nd & Hv & So & Op).
    assert (Nidx : ~ In i idx).
    { intros Hi. apply Hv in Hi as [_ Hi]. rewrite nth_set_nth_eq in Hi by auto. discriminate. }
    assert (Gn : forall q, In q idx -> nth q (set_nth i NaN v) NaN = nth q v NaN).
    { intros q Hq. apply nth_set_nth_neq. intros ->. auto. }
    exists (i :: idx). split; [|split; [|split; [|split; [|split]]]].
    + cbn [map app length]. change (@nnan XR XR_Num) with NaN. rewrite Es. reflexivity.
    + cbn [length]. rewrite Ll. unfold nonnan. rewrite <- (drop_nan_set_nth v i Li Ni). lia.
    + constructor; auto.
    + intros q [<-|Hq]; auto. specialize (Hv q Hq). rewrite set_nth_length, Gn in Hv by auto. auto.
    + intros a b [Hab Hb]. cbn [length] in Hb. destruct b as [|b]; [lia|].
      assert (Hbi : In (nth b idx 0%nat) idx) by (apply nth_In; lia). destruct a as [|a].
      * cbn [nth]. rewrite Pi. apply Lm.
        -- apply nth_In. specialize (Hv _ Hbi). rewrite set_nth_length in Hv. tauto.
        -- specialize (Hv _ Hbi). rewrite Gn in Hv by (apply nth_In; lia). tauto.
      * cbn [nth]. specialize (So a b ltac:(lia)). rewrite !Gn in So by (apply nth_In; lia). exact So.
    + intros q j Hq Hj Hnj Hnn. assert (Hij : i <> j) by (intros ->; apply Hnj; now left).
      destruct Hq as [<-|Hq].
      * rewrite Pi. apply Lm; auto. now apply nth_In.
      * specialize (Op q j Hq). rewrite set_nth_length, (Gn q Hq), (nth_set_nth_neq i j) in Op by auto. apply Op; auto.
        intros C. apply Hnj. now right.
Qed.
