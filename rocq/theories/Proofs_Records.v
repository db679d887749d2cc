From Coq Require Import ZArith List Bool Reals Lra Lia.
From Verif Require Import Num Np NumFacts Helper Spec_Helper.
Import ListNotations.
Local Open Scope R_scope.

Lemma arcminute_fin : arcminute (T := XR) = Fin (1 / 60).
Proof. unfold arcminute. rewrite nq_fin by lia. reflexivity. Qed.
Lemma close_near x y r : close (Fin x) (Fin y) (of_r r) = true <-> near (x, y) r.
Proof.
  unfold close, near. rewrite arcminute_fin. cbn [of_r fst snd].
  change (nltb (T := XR) (nabs (nsub (Fin (fst (fst r))) (Fin x))) (Fin (1 / 60)))
    with (Rltb (Rabs (fst (fst r) - x)) (1 / 60)).
  change (nltb (T := XR) (nabs (nsub (Fin (snd (fst r))) (Fin y))) (Fin (1 / 60)))
    with (Rltb (Rabs (snd (fst r) - y)) (1 / 60)).
  rewrite andb_true_iff. unfold Rltb. destruct (Rlt_dec (Rabs (fst (fst r) - x)) _), (Rlt_dec (Rabs (snd (fst r) - y)) _); intuition congruence.
Qed.
Lemma close_far x y no r : close (Fin x) (Fin y) (of_r r) = false -> far r (x, y, no).
Proof.
  intros E. assert (N : ~ near (x, y) r) by (rewrite <- close_near; congruence).
  unfold near, far in *. cbn [fst snd] in *.
  destruct (Rlt_le_dec (Rabs (fst (fst r) - x)) (1 / 60)); [|now left].
  destruct (Rlt_le_dec (Rabs (snd (fst r) - y)) (1 / 60)); [exfalso; tauto|now right].
Qed.

Definition apart (l : list rrecord) : Prop := ForallOrdPairs far l.
Lemma apart_snoc l r : apart l -> Forall (fun s => far s r) l -> apart (l ++ [r]).
Proof.
  induction l as [|a l IH]; intros HA HF; cbn; [repeat constructor|].
  inversion HA; subst. inversion HF; subst. constructor; [|now apply IH].
  apply Forall_app. split; [assumption|]. constructor; [assumption|constructor].
Qed.
Lemma apart_iff l : apart l -> forall i j d, (i < j < length l)%nat -> far (nth i l d) (nth j l d).
Proof.
  induction 1 as [|a l HF HA IH]; intros i j d Hij; [cbn in Hij; lia|].
  destruct j as [|j]; [lia|]. cbn in Hij. destruct i as [|i]; cbn [nth].
  - rewrite Forall_forall in HF. apply HF, nth_In. lia.
  - apply IH. lia.
Qed.

Lemma near_refl p no : near p (fst p, snd p, no).
Proof. unfold near. cbn [fst snd]. rewrite !Rminus_diag_eq, Rabs_R0 by reflexivity. lra. Qed.

(* one point *)
Lemma add_point_spec rs p no : apart rs ->
  exists more, add_point (Fin no) (map of_r rs) (of_xy p) = map of_r (rs ++ more) /\ apart (rs ++ more) /\
    (exists r, In r (rs ++ more) /\ near p r) /\ (more = [] \/ more = [(fst p, snd p, no)]).
Proof.
  intros HA. unfold add_point. cbn [of_xy fst snd].
  destruct (existsb (close (Fin (fst p)) (Fin (snd p))) (map of_r rs)) eqn:E.
  - exists []. rewrite app_nil_r. repeat split; auto. apply existsb_exists in E as (v & Hv & E).
    apply in_map_iff in Hv as (r & <- & Hr). exists r. split; [exact Hr|]. apply close_near in E. now destruct p.
  - exists [(fst p, snd p, no)]. split; [|split; [|split]].
    + rewrite map_app. reflexivity.
    + apply apart_snoc; [exact HA|]. apply Forall_forall. intros s Hs. apply close_far.
      apply not_true_iff_false. intros C. apply not_true_iff_false in E. apply E. apply existsb_exists.
      exists (of_r s). split; [now apply in_map|exact C].
    + exists (fst p, snd p, no). split; [apply in_or_app; right; now left|apply near_refl].
    + now right.
Qed.

Lemma fold_points no pts : forall rs, apart rs ->
  exists more, fold_left (add_point (Fin no)) (map of_xy pts) (map of_r rs) = map of_r (rs ++ more) /\
    apart (rs ++ more) /\ (forall p, In p pts -> exists r, In r (rs ++ more) /\ near p r) /\
    (forall r, In r more -> exists p, In p pts /\ r = (fst p, snd p, no)).
Proof.
  induction pts as [|p pts IH]; intros rs HA; cbn [map fold_left].
  - exists []. rewrite app_nil_r. repeat split; auto; intros x [].
  - destruct (add_point_spec rs p no HA) as (m1 & E1 & A1 & C1 & M1).
    rewrite E1. destruct (IH (rs ++ m1) A1) as (m2 & E2 & A2 & C2 & M2).
    exists (m1 ++ m2). rewrite app_assoc. repeat split; auto.
    + intros q [<-|Hq]; [|now apply C2]. destruct C1 as (r & Hr & Nr). exists r. split; [apply in_or_app; now left|exact Nr].
    + intros r Hr. apply in_app_or in Hr as [Hr|Hr].
      * destruct M1 as [->| ->]; [destruct Hr|]. destruct Hr as [<-|[]]. exists p. split; [now left|reflexivity].
      * destruct (M2 r Hr) as (q & Hq & ->). exists q. split; [now right|reflexivity].
Qed.

(* one call *)
Theorem call_records rs pts no : apart rs -> rs <> [] \/ pts <> [] ->
  exists more, selected_historical_points (map of_r rs) (map of_xy pts) (Fin no) = Ok (map of_r (rs ++ more)) /\
    apart (rs ++ more) /\ (forall p, In p pts -> exists r, In r (rs ++ more) /\ near p r) /\
    (forall r, In r more -> exists p, In p pts /\ r = (fst p, snd p, no)) /\ rs ++ more <> [].
Proof.
  intros HA HN. unfold selected_historical_points.
  destruct rs as [|r0 rs]; cbn [map].
  - destruct pts as [|p pts]; [tauto|]. cbn [map bind].
    assert (A1 : apart [(fst p, snd p, no)]) by (repeat constructor).
    destruct (fold_points no (p :: pts) [(fst p, snd p, no)] A1) as (m & E & A & C & M).
    exists ((fst p, snd p, no) :: m). cbn [app]. split; [|split; [exact A|split; [exact C|split]]].
    + f_equal. exact E.
    + intros r [<-|Hr]; [exists p; split; [now left|reflexivity]|now apply M].
    + discriminate.
  - cbn [bind]. destruct (fold_points no pts (r0 :: rs) HA) as (m & E & A & C & M).
    exists m. split; [f_equal; exact E|]. repeat split; auto. discriminate.
Qed.
Theorem call_nothing no : selected_historical_points (T := XR) [] [] no = Raise IndexError.
Proof. reflexivity. Qed.

(* a history of calls *)
Theorem history_records h : forall rs, apart rs -> (forall no pts, In (no, pts) h -> pts <> []) ->
  exists more, history h (map of_r rs) = Ok (map of_r (rs ++ more)) /\ apart (rs ++ more) /\
    (forall no pts p, In (no, pts) h -> In p pts -> exists r, In r (rs ++ more) /\ near p r) /\
    (forall r, In r more -> exists no pts p, In (no, pts) h /\ In p pts /\ r = (fst p, snd p, no)).
Proof.
  induction h as [|[no pts] h IH]; intros rs HA HN; cbn [history].
  - exists []. rewrite app_nil_r. repeat split; auto; intros x; intros; contradiction.
  - destruct (call_records rs pts no HA) as (m1 & E1 & A1 & C1 & M1 & _). { right. apply (HN no). now left. }
    rewrite E1. cbn [bind]. destruct (IH (rs ++ m1) A1) as (m2 & E2 & A2 & C2 & M2).
    { intros. apply (HN no0). now right. }
    exists (m1 ++ m2). rewrite app_assoc. repeat split; auto.
    + intros no' pts' p [E|Hin] Hp; [|now apply (C2 no' pts')]. inversion E; subst.
      destruct (C1 p Hp) as (r & Hr & Nr). exists r. split; [apply in_or_app; now left|exact Nr].
    + intros r Hr. apply in_app_or in Hr as [Hr|Hr].
      * destruct (M1 r Hr) as (p & Hp & ->). exists no, pts, p. split; [now left|auto].
      * destruct (M2 r Hr) as (no' & pts' & p & Hin & Hp & ->). exists no', pts', p. split; [now right|auto].
Qed.
