(* Proofs for covar_xyt_pv, covarxy_pv and build_cov *)
From Coq Require Import ZArith List Bool Reals Lra Lia Permutation.
From Verif Require Import Num Np NumFacts NpFacts Utilities Finders Stats Spec_Utilities Spec_Finders Spec_Stats
  LinR Kernels Proofs_Finders Proofs_Besthist Proofs_Thetas Proofs_Thetas2.
Import ListNotations.
Local Open Scope R_scope.

Lemma pv_points_fin l : l <> [] -> (forall p, In p l -> p_z p <> 0) ->
  pv_points (map fpoint l) = Ok (map Fin (map (fun p => vort (p_lat p) (p_z p)) l)).
Proof.
  intros Hl Hz. unfold pv_points, vectorize.
  destruct (map fpoint l) as [|x r] eqn:E; [destruct l; [congruence|discriminate]|]. rewrite <- E. clear E x r Hl.
  induction l as [|p l IH]; cbn [map mapM]; auto.
  cbn [fpoint p_lat p_z]. rewrite pv_vort by (apply Hz; simpl; auto). cbn [bind].
  rewrite IH by (intros; apply Hz; simpl; auto). reflexivity.
Qed.

Lemma pv_term u v phi : u <> 0 -> v <> 0 -> phi <> 0 ->
  nsq (ndiv (ndiv (nsub (Fin u) (Fin v)) (nsqrt (nadd (nsq (Fin u)) (nsq (Fin v))))) (Fin phi))
  = Fin (vorticity_distance2 phi u v).
Proof.
  intros Hu Hv Hp.
  assert (S : 0 < u * u + v * v) by nra.
  assert (Q : sqrt (u * u + v * v) <> 0) by (apply Rgt_not_eq, sqrt_lt_R0; auto).
  unfold nsq. cbn [nadd nsub nmul XR_Num xadd xsub xmul].
  rewrite xsqrt_fin by lra. rewrite ndiv_fin by auto. rewrite ndiv_fin by auto.
  cbn [nmul XR_Num xmul]. f_equal. unfold vorticity_distance2.
  destruct (Req_EM_T u 0); [contradiction|]. destruct (Req_EM_T v 0); [contradiction|].
  assert (E : sqrt (u * u + v * v) * sqrt (u * u + v * v) = u * u + v * v) by (apply sqrt_sqrt; lra).
  replace (u ^ 2 + v ^ 2) with (sqrt (u * u + v * v) * sqrt (u * u + v * v)) by (rewrite E; ring).
  generalize dependent (sqrt (u * u + v * v)). intros r Hr _. field. split; auto.
Qed.

Lemma sq_term a b s : s <> 0 -> nsq (ndiv (nsub (Fin a) (Fin b)) (Fin s)) = Fin (((a - b) / s) ^ 2).
Proof.
  intros Hs. unfold nsq. cbn [nsub XR_Num xsub]. rewrite ndiv_fin by auto. cbn. f_equal. ring.
Qed.

Lemma covariance_entry s l1 l2 : scales_nonzero s -> has_depth s l1 -> has_depth s l2 ->
  some_points s l1 -> some_points s l2 ->
  exists K, covariance s l1 l2 = Ok K /\
    forall i j, (i < length l1)%nat -> (j < length l2)%nat ->
      K i j = Fin (exp (- separation2 s (nth i l1 dpointR) (nth j l2 dpointR))).
Proof.
  intros (Ha & Hb & Hphi) Z1 Z2 N1 N2. unfold covariance, covar_xyt_pv.
  assert (P : forall l i, (i < length l)%nat -> nth i (map fpoint l) dpoint = fpoint (nth i l dpointR)).
  { intros l i Hi. now rewrite (nth_map _ _ _ _ dpointR). }
  assert (G : forall i j, (i < length l1)%nat -> (j < length l2)%nat ->
    nadd (nadd (nsq (ndiv (nsub (p_long (nth i (map fpoint l1) dpoint)) (p_long (nth j (map fpoint l2) dpoint))) (Fin (s_long s))))
               (nsq (ndiv (nsub (p_lat (nth i (map fpoint l1) dpoint)) (p_lat (nth j (map fpoint l2) dpoint))) (Fin (s_lat s)))))
         (if neqb (Fin (s_age s)) (nofZ 0) then nofZ 0 else
            nsq (ndiv (nsub (p_date (nth i (map fpoint l1) dpoint)) (p_date (nth j (map fpoint l2) dpoint))) (Fin (s_age s))))
    = Fin (let p := nth i l1 dpointR in let q := nth j l2 dpointR in
           ((p_lat p - p_lat q) / s_lat s) ^ 2 + ((p_long p - p_long q) / s_long s) ^ 2
           + (if Req_EM_T (s_age s) 0 then 0 else ((p_date p - p_date q) / s_age s) ^ 2))).
  { intros i j Hi Hj. rewrite !P by auto. cbn [fpoint p_lat p_long p_date]. rewrite !sq_term by auto.
    change (neqb (Fin (s_age s)) (nofZ 0)) with (Reqb (s_age s) 0). unfold Reqb.
    destruct (Req_EM_T (s_age s) 0) as [e|n].
    - cbn. f_equal. ring.
    - rewrite sq_term by auto. cbn. f_equal. ring. }
  destruct (s_pv s) eqn:Epv; cbn [Z.eqb Pos.eqb].
  - rewrite !pv_points_fin by (auto || apply Z1 || apply Z2; auto). cbn [bind].
    eexists. split; [reflexivity|]. intros i j Hi Hj. cbv beta zeta.
    rewrite G by auto. rewrite !map_map.
    rewrite !(nth_map _ _ _ _ dpointR) by auto.
    rewrite pv_term.
    + cbn. do 2 f_equal. unfold separation2. rewrite Epv. destruct (Req_EM_T (s_age s) 0); ring.
    + apply vort_nonzero. apply Z1; auto. now apply nth_In.
    + apply vort_nonzero. apply Z2; auto. now apply nth_In.
    + auto.
  - eexists. split; [reflexivity|]. intros i j Hi Hj. cbv beta zeta. rewrite G by auto.
    cbn. do 2 f_equal. unfold separation2. rewrite Epv. destruct (Req_EM_T (s_age s) 0); ring.
Qed.

Lemma separation_nonneg s p q : 0 <= separation2 s p q.
Proof.
  unfold separation2. pose proof (pow2_ge_0 ((p_lat p - p_lat q) / s_lat s)).
  pose proof (pow2_ge_0 ((p_long p - p_long q) / s_long s)).
  assert (0 <= if Req_EM_T (s_age s) 0 then 0 else ((p_date p - p_date q) / s_age s) ^ 2).
  { destruct (Req_EM_T (s_age s) 0); [lra|apply pow2_ge_0]. }
  assert (0 <= if s_pv s then vorticity_distance2 (s_phi s) (vort (p_lat p) (p_z p)) (vort (p_lat q) (p_z q)) else 0).
  { destruct (s_pv s); [apply vd2_nonneg|lra]. }
  lra.
Qed.
Lemma separation_sym s p q : separation2 s p q = separation2 s q p.
Proof.
  unfold separation2. rewrite (vd2_sym (s_phi s) (vort (p_lat q) (p_z q))).
  destruct (Req_EM_T (s_age s) 0), (s_pv s); unfold Rdiv; ring.
Qed.
Lemma separation_self s p : separation2 s p p = 0.
Proof.
  unfold separation2, vorticity_distance2.
  destruct (Req_EM_T (s_age s) 0), (s_pv s), (Req_EM_T (vort (p_lat p) (p_z p)) 0); unfold Rdiv; ring.
Qed.
Lemma exp_neg_unit x : 0 <= x -> 0 < exp (- x) <= 1.
Proof.
  intros Hx. split; [apply exp_pos|]. destruct (Req_dec x 0) as [->|].
  - rewrite Ropp_0, exp_0. lra.
  - left. rewrite <- exp_0. apply exp_increasing. lra.
Qed.

Lemma covariance_correlation s l1 l2 : scales_nonzero s -> has_depth s l1 -> has_depth s l2 ->
  some_points s l1 -> some_points s l2 ->
  exists K K', covariance s l1 l2 = Ok K /\ covariance s l2 l1 = Ok K' /\
    forall i j, (i < length l1)%nat -> (j < length l2)%nat ->
      exists v, K i j = Fin v /\ 0 < v <= 1 /\ K' j i = Fin v
        /\ (nth i l1 dpointR = nth j l2 dpointR -> v = 1).
Proof.
  intros S Z1 Z2 N1 N2. destruct (covariance_entry s l1 l2) as (K & EK & HK); auto.
  destruct (covariance_entry s l2 l1) as (K' & EK' & HK'); auto.
  exists K, K'. split; auto. split; auto. intros i j Hi Hj.
  eexists. split; [now apply HK|]. split; [apply exp_neg_unit, separation_nonneg|].
  split; [rewrite HK', separation_sym by auto; reflexivity|].
  intros ->. rewrite separation_self, Ropp_0, exp_0. reflexivity.
Qed.

(* ---- positive semidefiniteness ---- *)
Lemma pk_covariance s : scales_nonzero s ->
  pk (fun p q : {p : point R | s_pv s = true -> p_z p <> 0} => exp (- separation2 s (proj1_sig p) (proj1_sig q))).
Proof.
  intros (Ha & Hb & Hp).
  assert (G1 : pk (fun p q : {p : point R | s_pv s = true -> p_z p <> 0} =>
    exp (- (p_lat (proj1_sig p) / s_lat s - p_lat (proj1_sig q) / s_lat s)²))) by apply (pk_gauss (fun p => p_lat (proj1_sig p) / s_lat s)).
  assert (G2 : pk (fun p q : {p : point R | s_pv s = true -> p_z p <> 0} =>
    exp (- (p_long (proj1_sig p) / s_long s - p_long (proj1_sig q) / s_long s)²))) by apply (pk_gauss (fun p => p_long (proj1_sig p) / s_long s)).
  assert (G3 : pk (fun p q : {p : point R | s_pv s = true -> p_z p <> 0} =>
    exp (- (if Req_EM_T (s_age s) 0 then 0 else ((p_date (proj1_sig p) - p_date (proj1_sig q)) / s_age s) ^ 2)))).
  { destruct (Req_EM_T (s_age s) 0).
    - apply (pk_ext (fun _ _ => 1)); [intros; now rewrite Ropp_0, exp_0|]. apply pk_const. lra.
    - apply (pk_ext (fun p q => exp (- (p_date (proj1_sig p) / s_age s - p_date (proj1_sig q) / s_age s)²))).
      + intros p q. do 2 f_equal. unfold Rsqr. field. auto.
      + apply (pk_gauss (fun p : {p : point R | s_pv s = true -> p_z p <> 0} => p_date (proj1_sig p) / s_age s)). }
  assert (G4 : pk (fun p q : {p : point R | s_pv s = true -> p_z p <> 0} =>
    exp (- (if s_pv s then vorticity_distance2 (s_phi s) (vort (p_lat (proj1_sig p)) (p_z (proj1_sig p)))
                              (vort (p_lat (proj1_sig q)) (p_z (proj1_sig q))) else 0)))).
  { destruct (s_pv s) eqn:E.
    - set (f := fun p : {p : point R | true = true -> p_z p <> 0} => vort (p_lat (proj1_sig p)) (p_z (proj1_sig p))).
      assert (Hf : forall p, f p <> 0) by (intros [p Hz]; apply vort_nonzero; auto).
      apply (pk_ext (fun p q => exp (- ((f p - f q) / sqrt ((f p)² + (f q)²) / s_phi s)²))).
      + intros p q. do 2 f_equal. unfold vorticity_distance2. fold (f p) (f q).
        pose proof (Hf p) as Hu. pose proof (Hf q) as Hv. specialize (Hp eq_refl).
        destruct (Req_EM_T (f p) 0); [contradiction|]. destruct (Req_EM_T (f q) 0); [contradiction|].
        generalize dependent (f p). generalize dependent (f q). intros v Hv _ u Hu _.
        assert (S : 0 < u² + v²) by (apply Rplus_lt_0_compat; now apply Rsqr_pos_lt).
        assert (Q : sqrt (u² + v²) <> 0) by (apply Rgt_not_eq, sqrt_lt_R0; auto).
        assert (Q2 : sqrt (u² + v²) * sqrt (u² + v²) = u² + v²) by (apply sqrt_sqrt; lra).
        replace (u ^ 2 + v ^ 2) with (sqrt (u² + v²) * sqrt (u² + v²)) by (rewrite Q2; unfold Rsqr; ring).
        generalize dependent (sqrt (u² + v²)). intros r Hr _. unfold Rsqr. field. split; auto.
      + apply pk_relative; auto.
    - apply (pk_ext (fun _ _ => 1)); [intros; now rewrite Ropp_0, exp_0|]. apply pk_const. lra. }
  apply (pk_ext (fun p q : {p : point R | s_pv s = true -> p_z p <> 0} =>
    exp (- (p_lat (proj1_sig p) / s_lat s - p_lat (proj1_sig q) / s_lat s)²)
    * exp (- (p_long (proj1_sig p) / s_long s - p_long (proj1_sig q) / s_long s)²)
    * exp (- (if Req_EM_T (s_age s) 0 then 0 else ((p_date (proj1_sig p) - p_date (proj1_sig q)) / s_age s) ^ 2))
    * exp (- (if s_pv s then vorticity_distance2 (s_phi s) (vort (p_lat (proj1_sig p)) (p_z (proj1_sig p)))
                              (vort (p_lat (proj1_sig q)) (p_z (proj1_sig q))) else 0)))).
  - intros p q. rewrite <- !exp_plus. f_equal. unfold separation2, Rsqr, Rdiv. ring.
  - apply pk_prod; auto. apply pk_prod; auto. apply pk_prod; auto.
Qed.

Lemma covariance_psd_R s l w : scales_nonzero s -> has_depth s l ->
  0 <= bsum (length l) (fun i => bsum (length l) (fun j =>
         w i * w j * exp (- separation2 s (nth i l dpointR) (nth j l dpointR)))).
Proof.
  intros S Z.
  destruct l as [|p0 l']; [unfold bsum; simpl; lra|]. set (l := p0 :: l') in *.
  assert (H0 : s_pv s = true -> p_z p0 <> 0) by (intros E; apply (Z E); simpl; auto).
  set (f := fun i => match lt_dec i (length l) with
                     | left h => exist (fun p : point R => s_pv s = true -> p_z p <> 0) (nth i l dpointR)
                                   (fun E => Z E _ (nth_In l dpointR h))
                     | right _ => exist (fun p : point R => s_pv s = true -> p_z p <> 0) p0 H0
                     end).
  pose proof (pk_psd _ (length l) f (pk_covariance s S) w) as Q. unfold qform in Q.
  erewrite bsum_ext; [exact Q|]. intros i Hi. apply bsum_ext. intros j Hj. unfold f.
  destruct (lt_dec i (length l)); [|lia]. destruct (lt_dec j (length l)); [|lia]. reflexivity.
Qed.

Lemma covariance_psd s l : scales_nonzero s -> has_depth s l -> some_points s l ->
  exists K, covariance s l l = Ok K /\
    exists k, (forall i j, (i < length l)%nat -> (j < length l)%nat -> K i j = Fin (k i j)) /\
      forall w : nat -> R, 0 <= bsum (length l) (fun i => bsum (length l) (fun j => w i * w j * k i j)).
Proof.
  intros S Z N. destruct (covariance_entry s l l) as (K & EK & HK); auto.
  exists K. split; auto. eexists. split; [exact HK|]. intros w. now apply covariance_psd_R.
Qed.
