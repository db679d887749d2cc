(* Proofs for pyowc/core/finders.py: find_ellipse, find_besthist *)
From Coq Require Import ZArith List Bool Reals Lra Lia Permutation Sorted.
From Flocq Require Import Core.Raux.
From Verif Require Import Num Np NumFacts NpFacts Utilities Finders Spec_Utilities Spec_Finders
  Proofs_Utilities Proofs_Utilities2 Proofs_Utilities4.
Import ListNotations.
Local Open Scope R_scope.

Lemma vd2_nonneg phi p1 p2 : 0 <= vorticity_distance2 phi p1 p2.
Proof.
  unfold vorticity_distance2. destruct (Req_EM_T p1 0); [lra|]. destruct (Req_EM_T p2 0); [lra|].
  unfold Rdiv. apply Rmult_le_pos; [apply Rmult_le_pos|].
  - apply pow2_ge_0.
  - left. apply Rinv_0_lt_compat. nra.
  - destruct (Req_dec phi 0) as [->|]; [|left; apply Rinv_0_lt_compat; nra].
    replace (0 ^ 2) with 0 by ring. rewrite Rinv_0. lra.
Qed.

Lemma vd2_sym phi p1 p2 : vorticity_distance2 phi p1 p2 = vorticity_distance2 phi p2 p1.
Proof.
  unfold vorticity_distance2. destruct (Req_EM_T p1 0), (Req_EM_T p2 0); auto.
  rewrite (Rplus_comm (p1^2)). f_equal. f_equal. ring.
Qed.

Lemma sq2_nonneg a : 0 <= a ^ 2.
Proof. apply pow2_ge_0. Qed.

Lemma ellipse2_nonneg a b c d e f phi p q : 0 <= ellipse2 a b c d e f phi p q.
Proof.
  unfold ellipse2. pose proof (sq2_nonneg ((a - b) / (3 * c))). pose proof (sq2_nonneg ((d - e) / (3 * f))).
  pose proof (vd2_nonneg phi p q). lra.
Qed.

Lemma find_ellipse_eval dl cl sl da ca sa phi dp cp :
  sl <> 0 -> sa <> 0 -> (dp <> 0 -> cp <> 0 -> phi <> 0) ->
  find_ellipse (Fin dl) (Fin cl) (Fin sl) (Fin da) (Fin ca) (Fin sa) (Fin phi) (Fin dp) (Fin cp)
  = Ok (Fin (sqrt (ellipse2 dl cl sl da ca sa phi dp cp))).
Proof.
  intros Hl Ha Hp. unfold find_ellipse. cbn [neqb XR_Num nofZ xeqb].
  assert (E : exists t, (if negb (Reqb dp 0) && negb (Reqb cp 0)
     then let* a := pydiv (nsub (Fin cp) (Fin dp)) (nsqrt (nadd (nsq (Fin cp)) (nsq (Fin dp)))) in pydiv a (Fin phi)
     else Ok (Fin 0)) = Ok (Fin t) /\ t * t = vorticity_distance2 phi dp cp).
  { unfold vorticity_distance2. unfold Reqb. destruct (Req_EM_T dp 0) as [->|N1]; cbn [negb andb].
    { exists 0. split; auto. ring. }
    destruct (Req_EM_T cp 0) as [->|N2]; cbn [negb andb].
    { exists 0. split; auto. ring. }
    specialize (Hp N1 N2).
    assert (P : 0 < cp * cp + dp * dp) by nra.
    assert (S : sqrt (cp * cp + dp * dp) <> 0) by (apply Rgt_not_eq, sqrt_lt_R0; auto).
    unfold nsq. cbn [nmul nadd nsub XR_Num xmul xadd xsub].
    change (nsqrt (Fin (cp * cp + dp * dp))) with (xsqrt (Fin (cp * cp + dp * dp))).
    rewrite xsqrt_fin by lra. rewrite pydiv_fin by auto. cbn [bind]. rewrite pydiv_fin by auto.
    eexists; split; [reflexivity|].
    assert (E : sqrt (cp * cp + dp * dp) * sqrt (cp * cp + dp * dp) = cp * cp + dp * dp)
      by (apply sqrt_sqrt; lra).
    transitivity ((cp - dp) * (cp - dp) / (sqrt (cp * cp + dp * dp) * sqrt (cp * cp + dp * dp)) / (phi * phi)).
    - field. auto.
    - rewrite E. field. split; auto. nra. }
  destruct E as (t & -> & Ht). cbn [bind]. unfold nsq.
  cbn [nmul nadd nsub XR_Num xmul xadd xsub nofZ].
  rewrite pydiv_fin by nra. cbn [bind]. rewrite pydiv_fin by nra. cbn [bind].
  unfold ellipse2. rewrite <- Ht.
  change (nsqrt ?x) with (xsqrt x). cbn [xadd].
  assert (E : forall x y, y <> 0 -> x * x / (y * 3 * (y * 3)) = (x / (3 * y)) ^ 2) by (intros; field; auto).
  rewrite !E by auto.
  rewrite xsqrt_fin.
  - reflexivity.
  - pose proof (sq2_nonneg ((dl - cl) / (3 * sl))). pose proof (sq2_nonneg ((da - ca) / (3 * sa))). nra.
Qed.

Lemma sqrt_lt_1_iff v : 0 <= v -> (sqrt v < 1 <-> v < 1).
Proof.
  intros Hv. split; intros E.
  - destruct (Rlt_le_dec v 1); auto. apply sqrt_le_1 in r; try lra. rewrite sqrt_1 in r. lra.
  - rewrite <- sqrt_1. apply sqrt_lt_1; lra.
Qed.

(* ---- potential vorticity of the spec ---- *)
Lemma pv_vort lat z : z <> 0 -> potential_vorticity (Fin lat) (Fin z) = Ok (Fin (vort lat z)).
Proof.
  intros Hz. rewrite pv_eval by auto. unfold vort.
  destruct (Req_EM_T (sin (lat * PI / 180)) 0); auto. do 2 f_equal. unfold omega2. field. auto.
Qed.

Lemma vort_nonzero lat z : z <> 0 -> vort lat z <> 0.
Proof.
  intros Hz. destruct (pv_props lat z Hz) as (v & E & Hv & _).
  rewrite pv_vort in E by auto. congruence.
Qed.
