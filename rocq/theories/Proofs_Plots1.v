(* Programs of drawing calls, and theta_sal_plot *)
From Coq Require Import String ZArith List Bool Reals Lia Lra.
From Flocq Require Import Core.Raux.
From Verif Require Import Num Np NumFacts NpFacts Finders Proofs_Thetas3 Pyplot Plots Spec_Plots.
Import ListNotations.
Local Open Scope nat_scope.

Lemma flat_map_ext_in {A B} (f g : A -> list B) l : (forall a, In a l -> f a = g a) -> flat_map f l = flat_map g l.
Proof. induction l as [|a r IH]; intros E; cbn; [reflexivity|]. rewrite E by now left. rewrite IH; [reflexivity|]. intros b Hb. apply E. now right. Qed.

Section Progs.
  Context {D : Type}.
  Implicit Types p q : prog D.

  Lemma completes_pseq p q : completes (pseq p q) <-> completes p /\ completes q.
  Proof. unfold completes, pseq. destruct p as [cs [e|]]; cbn; intuition congruence. Qed.
  Lemma fst_pseq p q : completes p -> fst (pseq p q) = fst p ++ fst q.
  Proof. unfold completes, pseq. intros ->. reflexivity. Qed.
  Lemma drawn_pseq p q : completes p -> drawn (pseq p q) = drawn p ++ drawn q.
  Proof. intros Hp. unfold drawn. now rewrite fst_pseq, flat_map_app. Qed.
  Lemma saved_pseq p q : completes p -> saved_names (pseq p q) = saved_names p ++ saved_names q.
  Proof. intros Hp. unfold saved_names. now rewrite fst_pseq, flat_map_app. Qed.
  Lemma completes_pdo cs : completes (pdo cs : prog D).
  Proof. reflexivity. Qed.

  Lemma completes_pfor {A} (l : list A) (f : A -> prog D) : completes (pfor l f) <-> forall a, In a l -> completes (f a).
  Proof.
    induction l as [|a r IH]; cbn [pfor fold_right].
    - split; [intros _ a []|intros _; reflexivity].
    - rewrite completes_pseq. fold (pfor r f). rewrite IH. split.
      + intros [Ha Hr] b [<-|Hb]; auto.
      + intros Hb. split; [apply Hb; now left|intros b Hin; apply Hb; now right].
  Qed.
  Lemma fst_pfor {A} (l : list A) (f : A -> prog D) : (forall a, In a l -> completes (f a)) -> fst (pfor l f) = flat_map (fun a => fst (f a)) l.
  Proof.
    induction l as [|a r IH]; intros Hc; [reflexivity|]. cbn [pfor fold_right flat_map]. rewrite fst_pseq by (apply Hc; now left).
    fold (pfor r f). rewrite IH; [reflexivity|intros b Hb; apply Hc; now right].
  Qed.
  Lemma drawn_pfor {A} (l : list A) (f : A -> prog D) : (forall a, In a l -> completes (f a)) -> drawn (pfor l f) = flat_map (fun a => drawn (f a)) l.
  Proof.
    intros Hc. unfold drawn. rewrite fst_pfor by assumption. clear Hc. induction l as [|a r IH]; [reflexivity|].
    cbn [flat_map]. now rewrite flat_map_app, IH.
  Qed.
  Lemma completes_pbind {A} (r : res A) (f : A -> prog D) : completes (pbind r f) -> exists a, r = Ok a /\ completes (f a).
  Proof. destruct r as [a|e]; cbn; [eauto|discriminate]. Qed.
End Progs.

Section Calls.
  Context {T : Type} `{Num T}.
  Lemma completes_curve xs ys l : completes (@curve T xs ys l) -> curve xs ys l = pdo [Draw (Curve xs ys l)] /\ length xs = length ys.
  Proof. unfold curve. destruct (Nat.eqb_spec (length xs) (length ys)); [auto|discriminate]. Qed.
  Lemma completes_bars h xs ys es : completes (@bars T h xs ys es) -> bars h xs ys es = pdo [Draw (Bars h xs ys es)].
  Proof. unfold bars. destruct (_ && _); [auto|discriminate]. Qed.
  Lemma completes_limits h a b : completes (limits h a b) -> limits h a b = pdo [Draw (Limits h a b)] /\ nisfin a = true /\ nisfin b = true.
  Proof. unfold limits. destruct (nisfin a), (nisfin b); cbn; try discriminate; auto. Qed.
End Calls.

Lemma at1_ok {A} (l : list A) i a d : at1 l i = Ok a -> i < length l /\ a = nth i l d.
Proof.
  unfold at1. destruct (nth_error l i) eqn:E; [|discriminate]. intros [= <-]. split.
  - apply nth_error_Some. congruence.
  - symmetry. now apply nth_error_nth.
Qed.
Lemma at2_ok {T} (l : list (list T)) i j a d : at2 l i j = Ok a -> a = nth i (nth j l []) d /\ j < length l /\ i < length (nth j l []).
Proof.
  unfold at2. destruct (at1 l j) as [c|] eqn:E; [|discriminate]. cbn [bind]. intros E2.
  apply (at1_ok _ _ _ (@nil T)) in E as [Hj ->]. apply (at1_ok _ _ _ d) in E2 as [Hi ->]. auto.
Qed.

(* ---- the curve and the error bars of every profile (any numbers) ---- *)
Section ThetaSal.
  Context {T : Type} `{Num T}.
  Variables (sal theta map_sal map_theta map_errors : list (list T)) (index : list (list (option nat))) (profiles : list T)
    (p : @plot_paths T) (name title : string).
  Definition label_of (legend : list T) (i : nat) : label T :=
    if existsb (fun x => neqb x (nofZ (Z.of_nat i))) legend then Number (nth i profiles nnan) else NoLabel.
  Definition bars_of (i : nat) : list (item T) :=
    flat_map (fun row => match nth i row None with
                         | Some r => [Bars true [nth r (nth i map_sal []) nnan] [nth r (nth i map_theta []) nnan] [nth r (nth i map_errors []) nnan]]
                         | None => [] end) index.

  Lemma theta_sal_drawn : completes (theta_sal_plot sal theta map_sal map_theta map_errors index profiles p name title) ->
    exists legend, n_legend (length sal) profiles = Ok legend /\
      drawn (theta_sal_plot sal theta map_sal map_theta map_errors index profiles p name title) =
        flat_map (fun i => Curve (nth i sal []) (nth i theta []) (label_of legend i) :: bars_of i) (seq 0 (length sal)) /\
      saved_names (theta_sal_plot sal theta map_sal map_theta map_errors index profiles p name title) = [plot_file p name ("_" ++ title ++ "_theta_sal")].
  Proof.
    unfold theta_sal_plot. intros Hc. apply completes_pseq in Hc as [_ Hc].
    rewrite drawn_pseq, saved_pseq by reflexivity. destruct (n_legend (length sal) profiles) as [legend|e]; [|discriminate Hc]. cbn [pbind] in *.
    exists legend. split; [reflexivity|]. apply completes_pseq in Hc as [Hc _].
    rewrite drawn_pseq, saved_pseq by assumption. cbn [drawn fst pdo saved_names flat_map app]. rewrite app_nil_r.
    pose proof (proj1 (completes_pfor _ _) Hc) as Hi. rewrite drawn_pfor by assumption. split.
    - apply flat_map_ext_in. intros i Hin. specialize (Hi i Hin). apply completes_pbind in Hi as ([[s th] l] & E & Hi). rewrite E. cbn [pbind fst snd] in *.
      apply bind_ok in E as (s0 & Es & E). apply bind_ok in E as (th0 & Et & E). apply bind_ok in E as (l0 & El & E). injection E as -> -> ->.
      apply (at1_ok _ _ _ (@nil T)) in Es as [_ ->]. apply (at1_ok _ _ _ (@nil T)) in Et as [_ ->].
      assert (l = label_of legend i) as ->.
      { unfold label_of. destruct (existsb _ legend); [|now injection El].
        apply bind_ok in El as (k & Ek & El). injection El as <-. apply (at1_ok _ _ _ nnan) in Ek as [_ ->]. reflexivity. }
      apply completes_pseq in Hi as [Hcu Hi]. rewrite drawn_pseq by assumption. destruct (completes_curve _ _ _ Hcu) as [-> _].
      cbn [drawn fst pdo flat_map app]. f_equal.
      apply completes_pbind in Hi as (column & Ec & Hi). rewrite Ec. cbn [pbind].
      pose proof (proj1 (completes_pfor _ _) Hi) as Hj. fold (drawn (pfor column (fun o => match o with
        | None => pnil
        | Some j => pbind (let* a := at2 map_sal j i in let* b := at2 map_theta j i in let* e := at2 map_errors j i in
                           Ok (a, b, e)) (fun abe => bars true [fst (fst abe)] [snd (fst abe)] [snd abe]) end))).
      rewrite drawn_pfor by assumption.
      unfold bars_of. clear Hi. apply mapM_ok in Ec. revert Hj. clear - Ec. induction Ec as [|row o rows col Ho HF IH]; intros Hj; [reflexivity|].
      cbn [flat_map]. f_equal; [|apply IH; intros a Ha; apply Hj; now right].
      apply (at1_ok _ _ _ None) in Ho as [_ ->]. specialize (Hj _ (or_introl eq_refl)). destruct (nth i row None) as [r|]; [|reflexivity].
      apply completes_pbind in Hj as ([[a b] e] & E & Hj). rewrite E. cbn [pbind fst snd] in *. rewrite (completes_bars _ _ _ _ Hj).
      apply bind_ok in E as (a0 & Ea & E). apply bind_ok in E as (b0 & Eb & E). apply bind_ok in E as (e0 & Ee & E). injection E as -> -> ->.
      apply (at2_ok _ _ _ _ nnan) in Ea as [-> _]. apply (at2_ok _ _ _ _ nnan) in Eb as [-> _]. apply (at2_ok _ _ _ _ nnan) in Ee as [-> _]. reflexivity.
    - rewrite <- (app_nil_l [plot_file _ _ _]). f_equal. unfold saved_names. rewrite fst_pfor by assumption.
      clear Hc. revert Hi. generalize (seq 0 (length sal)). intros is Hi. induction is as [|i is IH]; [reflexivity|]. cbn [flat_map].
      rewrite flat_map_app, IH by (intros a Ha; apply Hi; now right). rewrite app_nil_r. specialize (Hi i (or_introl eq_refl)).
      apply completes_pbind in Hi as ([[s th] l] & E & Hi). rewrite E. cbn [pbind fst snd] in *.
      apply completes_pseq in Hi as [Hcu Hi]. rewrite fst_pseq by assumption. destruct (completes_curve _ _ _ Hcu) as [-> _].
      cbn [fst pdo app flat_map]. apply completes_pbind in Hi as (column & Ec & Hi). rewrite Ec. cbn [pbind].
      pose proof (proj1 (completes_pfor _ _) Hi) as Hj. rewrite fst_pfor by assumption. clear - Hj. induction column as [|o col IH]; [reflexivity|].
      cbn [flat_map]. rewrite flat_map_app, IH by (intros a Ha; apply Hj; now right). rewrite app_nil_r. specialize (Hj o (or_introl eq_refl)).
      destruct o as [r|]; [|reflexivity]. apply completes_pbind in Hj as ([[a b] e] & E & Hj). rewrite E. cbn [pbind fst snd] in *.
      now rewrite (completes_bars _ _ _ _ Hj).
  Qed.
End ThetaSal.

(* ---- the legend ---- *)
Lemma stride_pos n : 1 <= n -> 1 <= stride n.
Proof. intros Hn. unfold stride. apply Nat.div_le_lower_bound; lia. Qed.
Lemma stride_ceil n : Zceil (IZR (Z.of_nat n) / 30) = Z.of_nat (stride n).
Proof.
  unfold stride. rewrite Nat2Z.inj_div. apply Zceil_imp.
  rewrite Nat2Z.inj_add. change (Z.of_nat 29) with 29%Z. change (Z.of_nat 30) with 30%Z. set (z := Z.of_nat n).
  pose proof (Z.div_mod (z + 29) 30 ltac:(lia)) as E. pose proof (Z.mod_pos_bound (z + 29) 30 ltac:(lia)) as B.
  set (d := ((z + 29) / 30)%Z) in *. set (m := ((z + 29) mod 30)%Z) in *.
  assert (Ez : IZR z = (30 * IZR d + IZR m - 29)%R).
  { rewrite <- mult_IZR, <- plus_IZR, <- minus_IZR. f_equal. lia. }
  rewrite minus_IZR.
  assert (0 <= IZR m)%R by (apply IZR_le; lia). assert (IZR m <= 29)%R by (apply IZR_le; lia).
  split; lra.
Qed.

Lemma legend_eval n (nos : list Z) z : 1 <= n ->
  n_legend (T := XR) n (map (fun z => Fin (IZR z)) (nos ++ [z])) =
  Ok (map (fun k => Fin (INR k * INR (stride n))) (seq 0 (Z.to_nat (Zceil (IZR z / INR (stride n)))))).
Proof.
  intros Hn. unfold n_legend. rewrite map_app, rev_app_distr. cbn [rev map app].
  assert (En : ndiv (nofZ (Z.of_nat n)) (nofZ 30) = Fin (IZR (Z.of_nat n) / 30)).
  { cbn [nofZ XR_Num ndiv]. apply ndiv_fin. lra. }
  rewrite En. cbn [nceil XR_Num xlift]. rewrite stride_ceil. rewrite <- INR_IZR_INZ.
  pose proof (stride_pos n Hn) as Hs.
  assert (Hs' : (INR (stride n) <> 0)%R) by (apply not_0_INR; lia).
  change (nofZ 0) with (Fin 0).
  rewrite arange_fin by assumption. f_equal.
  replace ((IZR z - 0) / INR (stride n))%R with (IZR z / INR (stride n))%R by (f_equal; ring).
  apply map_ext. intros k. f_equal. ring.
Qed.

Lemma in_legend_spec n (nos : list Z) z i legend : 1 <= n ->
  n_legend (T := XR) n (map (fun z => Fin (IZR z)) (nos ++ [z])) = Ok legend ->
  existsb (fun x => neqb x (nofZ (Z.of_nat i))) legend = in_legend n z i.
Proof.
  intros Hn El. rewrite legend_eval in El by assumption. injection El as <-.
  pose proof (stride_pos n Hn) as Hs. assert (Hs' : (0 < INR (stride n))%R) by (apply lt_0_INR; lia).
  apply eq_true_iff_eq. rewrite existsb_exists. unfold in_legend. rewrite andb_true_iff, Nat.eqb_eq, Z.ltb_lt. split.
  - intros (x & Hx & E). apply in_map_iff in Hx as (k & <- & Hk). apply in_seq in Hk as [_ Hk]. cbn [Nat.add] in Hk.
    cbn [neqb XR_Num xeqb nofZ] in E. apply Reqb_true in E. rewrite <- mult_INR, <- INR_IZR_INZ in E. apply INR_eq in E. subst i.
    split; [apply Nat.mod_mul; lia|].
    assert (Hz : (0 < Zceil (IZR z / INR (stride n)))%Z) by lia.
    assert (0 <= IZR z / INR (stride n))%R.
    { destruct (Rle_dec 0 (IZR z / INR (stride n))) as [|N]; [assumption|]. apply Rnot_le_lt in N.
      assert (Zceil (IZR z / INR (stride n)) <= 0)%Z; [|lia]. apply Zceil_glb. lra. }
    apply ceil_count in Hk; [|assumption]. apply lt_IZR. rewrite <- INR_IZR_INZ, mult_INR.
    apply Rmult_lt_compat_r with (r := INR (stride n)) in Hk; [|assumption]. unfold Rdiv in Hk. rewrite Rmult_assoc, Rinv_l, Rmult_1_r in Hk by lra. exact Hk.
  - intros [Em Hz]. apply Nat.mod_divides in Em as [k Ek]; [|lia]. exists (Fin (INR k * INR (stride n))). split.
    + apply in_map_iff. exists k. split; [reflexivity|]. apply in_seq. split; [lia|]. cbn [Nat.add]. apply ceil_count.
      * apply Rmult_le_pos; [apply IZR_le; lia|]. left. now apply Rinv_0_lt_compat.
      * apply Rmult_lt_reg_r with (r := INR (stride n)); [assumption|]. unfold Rdiv. rewrite Rmult_assoc, Rinv_l, Rmult_1_r by lra.
        rewrite <- mult_INR, INR_IZR_INZ. apply IZR_lt. lia.
    + cbn [neqb XR_Num xeqb nofZ]. apply Reqb_true. rewrite <- mult_INR, <- INR_IZR_INZ. f_equal. lia.
Qed.

Lemma legend_few n z : 1 <= n -> length (filter (in_legend n z) (seq 0 n)) <= 30.
Proof.
  intros Hn. pose proof (stride_pos n Hn) as Hs.
  assert (Hi : incl (filter (in_legend n z) (seq 0 n)) (map (fun k => stride n * k) (seq 0 30))).
  { intros i Hi. apply filter_In in Hi as [Hi E]. apply in_seq in Hi as [_ Hi]. cbn [Nat.add] in Hi. unfold in_legend in E. apply andb_true_iff in E as [E _].
    apply Nat.eqb_eq in E. apply Nat.mod_divides in E as [k Ek]; [|lia]. apply in_map_iff. exists k. split; [symmetry; exact Ek|].
    apply in_seq. split; [lia|]. cbn [Nat.add]. assert (n <= 30 * stride n).
    { unfold stride. pose proof (Nat.div_mod (n + 29) 30 ltac:(lia)). pose proof (Nat.mod_upper_bound (n + 29) 30 ltac:(lia)). lia. }
    destruct (Nat.lt_ge_cases k 30); [assumption|]. assert (stride n * 30 <= stride n * k) by (apply Nat.mul_le_mono_l; lia). lia. }
  apply NoDup_incl_length in Hi; [|apply NoDup_filter, seq_NoDup]. rewrite map_length, seq_length in Hi. exact Hi.
Qed.

Section Legend.
  Variables (sal theta map_sal map_theta map_errors : list (list XR)) (index : list (list (option nat))) (nos : list Z) (z : Z)
    (p : @plot_paths XR) (name title : string).
  Let profiles : list XR := map (fun z => Fin (IZR z)) (nos ++ [z]).
  Let plot := theta_sal_plot sal theta map_sal map_theta map_errors index profiles p name title.

  Lemma bars_no_numbers i : legend_numbers (bars_of map_sal map_theta map_errors index i) = [].
  Proof.
    unfold bars_of, legend_numbers. induction index as [|row r IH]; [reflexivity|]. cbn [flat_map]. rewrite flat_map_app, IH.
    destruct (nth i row None); reflexivity.
  Qed.

  Lemma legend_drawn : sal <> [] -> completes plot ->
    legend_numbers (drawn plot) = map (fun i => nth i profiles NaN) (filter (in_legend (length sal) z) (seq 0 (length sal))) /\
    length (legend_numbers (drawn plot)) <= 30.
  Proof.
    intros Hne Hc. assert (Hn : 1 <= length sal) by (destruct sal; [contradiction|cbn; lia]).
    destruct (theta_sal_drawn _ _ _ _ _ _ _ _ _ _ Hc) as (legend & El & Ed & _). unfold plot. rewrite Ed.
    assert (E : legend_numbers (flat_map (fun i => Curve (nth i sal []) (nth i theta []) (label_of profiles legend i)
                  :: bars_of map_sal map_theta map_errors index i) (seq 0 (length sal)))
              = map (fun i => nth i profiles NaN) (filter (in_legend (length sal) z) (seq 0 (length sal)))).
    { generalize (seq 0 (length sal)). intros is. induction is as [|i is IH]; [reflexivity|]. cbn [flat_map]. unfold legend_numbers in *.
      rewrite flat_map_app, IH. cbn [flat_map]. fold (legend_numbers (bars_of map_sal map_theta map_errors index i)). rewrite bars_no_numbers, app_nil_r.
      unfold label_of. rewrite (in_legend_spec (length sal) nos z i legend Hn El). cbn [filter]. destruct (in_legend (length sal) z i); reflexivity. }
    rewrite E. split; [reflexivity|]. rewrite map_length. now apply legend_few.
  Qed.
End Legend.
