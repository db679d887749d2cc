(* The test whether a profile spans 300 dbar, on real numbers *)
From Coq Require Import ZArith List Bool Reals Lra Lia.
From Verif Require Import Num Np NumFacts NpFacts Saf Spec_Saf Proofs_Thetas Proofs_Saf2.
Import ListNotations.
Local Open Scope R_scope.

Lemma xle_lt_trans a b c : xleb a b = true -> xltb b c = true -> xltb a c = true.
Proof. destruct a, b, c; cbn; auto; try discriminate. rewrite Rltb_true, Rleb_true, Rltb_true. lra. Qed.
Lemma xlt_le_trans a b c : xltb a b = true -> xleb b c = true -> xltb a c = true.
Proof. destruct a, b, c; cbn; auto; try discriminate. rewrite Rltb_true, Rleb_true, Rltb_true. lra. Qed.

Lemma max_from_xr m l : nisnan m = false -> (forall x, In x l -> nisnan x = false) ->
  In (max_from m l) (m :: l) /\ forall x, In x (m :: l) -> xleb x (max_from m l) = true.
Proof.
  revert m. induction l as [|a l IH]; intros m Hm Hl.
  - cbn. split; auto. intros x [<-|[]]. now apply xle_refl.
  - unfold max_from in *. cbn [fold_left]. assert (Ha : nisnan a = false) by (apply Hl; now left).
    cbn [nltb XR_Num]. destruct (xltb m a) eqn:E.
    + destruct (IH a Ha) as [I L]; [intros; apply Hl; now right|]. split; [now right|].
      intros x [<-|Hx]; auto. eapply xle_trans; [|apply L; now left]. now apply xlt_le.
    + destruct (IH m Hm) as [I L]; [intros; apply Hl; now right|]. split.
      * destruct I as [I|I]; [now left|right; now right].
      * intros x [<-|[<-|Hx]]; [apply L; now left| |apply L; now right].
        eapply xle_trans; [|apply L; now left]. now apply xle_nlt.
Qed.

Theorem spans_iff (ps : list XR) : (forall p, In p ps -> nisnan p = false) ->
  (spans_300 ps <-> (2 < length ps)%nat /\ (exists p, In p ps /\ nltb p (nofZ 300) = true) /\
                    (exists p, In p ps /\ nltb (nofZ 300) p = true)).
Proof.
  intros NN. unfold spans_300. destruct ps as [|m l].
  - split; [intros [A _]|intros [A _]]; cbn in A; lia.
  - cbn [np_min np_max].
    destruct (min_from_xr m l) as [I L]; [apply NN; now left|intros; apply NN; now right|].
    destruct (max_from_xr m l) as [I' L']; [apply NN; now left|intros; apply NN; now right|].
    split.
    + intros (A & B & C). split; auto. split; eexists; split; [exact I|exact B|exact I'|exact C].
    + intros (A & (p & Ip & Hp) & (q & Iq & Hq)). split; auto. split.
      * eapply xle_lt_trans; [apply L; exact Ip|exact Hp].
      * eapply xlt_le_trans; [exact Hq|apply L'; exact Iq].
Qed.

Theorem float_spans_iff (fl : float_profile XR) :
  spans_300 (usable_pres fl) <->
  (2 < length (usable_pres fl))%nat /\ (exists p, In p (usable_pres fl) /\ nltb p (nofZ 300) = true) /\
  (exists p, In p (usable_pres fl) /\ nltb (nofZ 300) p = true).
Proof.
  apply spans_iff. intros p Hp. unfold usable_pres in Hp. apply in_map_iff in Hp as (i & <- & Hi).
  apply filter_In in Hi as [_ Hi]. unfold usable in Hi. apply andb_prop in Hi as [Hi _]. now apply negb_true_iff in Hi.
Qed.
