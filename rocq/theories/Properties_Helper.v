(* Properties C60-C62: pyowc/helper.py *)
From Coq Require Import ZArith List Bool Reals Lra Lia.
From Verif Require Import Num Np NumFacts Helper Spec_Helper Proofs_Helper Proofs_Records DemoNum.
Import ListNotations.

(* ---- C60 ---- *)
Local Open Scope R_scope.
Theorem C60_records : forall h rs,
  ForallOrdPairs far rs -> (forall no pts, In (no, pts) h -> pts <> []) ->
  exists more, history h (map of_r rs) = Ok (map of_r (rs ++ more)) /\ ForallOrdPairs far (rs ++ more) /\
    (forall no pts p, In (no, pts) h -> In p pts -> exists r, In r (rs ++ more) /\ near p r) /\
    (forall r, In r more -> exists no pts p, In (no, pts) h /\ In p pts /\ r = (fst p, snd p, no)).
Proof. exact history_records. Qed.
Print Assumptions C60_records.
Theorem C60_any_two : forall l, ForallOrdPairs far l -> forall i j d, (i < j < length l)%nat -> far (nth i l d) (nth j l d).
Proof. exact apart_iff. Qed.
Print Assumptions C60_any_two.
Theorem C60_nothing_recorded : forall no, selected_historical_points (T := XR) [] [] no = Raise IndexError.
Proof. exact call_nothing. Qed.
Print Assumptions C60_nothing_recorded.
(* two profiles; the second point of the second one is next to the first record *)
Example C60_witness :
  history [(1, [(10, 50); (11, 50)]); (2, [(12, 50); (10 + 1 / 100, 50 + 1 / 100)])] []
  = Ok (map of_r [(10, 50, 1); (11, 50, 1); (12, 50, 2)]).
Proof.
  unfold history, selected_historical_points, add_point, close. rewrite arcminute_fin.
  cbn [map of_xy fst snd fold_left existsb bind].
  assert (L : forall a b, nltb (T := XR) (nabs (nsub (Fin a) (Fin b))) (Fin (1 / 60)) = Rltb (Rabs (a - b)) (1 / 60)) by reflexivity.
  assert (Y : forall x, Rabs x < 1 / 60 -> Rltb (Rabs x) (1 / 60) = true) by (intros x Hx; unfold Rltb; destruct (Rlt_dec _ _); [reflexivity|contradiction]).
  assert (N : forall x, 1 / 60 <= Rabs x -> Rltb (Rabs x) (1 / 60) = false) by (intros x Hx; unfold Rltb; destruct (Rlt_dec _ _); [lra|reflexivity]).
  assert (A : forall x, Rabs x = x \/ Rabs x = - x) by (intros x; unfold Rabs; destruct (Rcase_abs x); auto).
  assert (P : forall x, 0 <= Rabs x) by apply Rabs_pos.
  rewrite !L.
  rewrite (Y (10 - 10)) by (apply Rabs_def1; lra). rewrite (Y (50 - 50)) by (apply Rabs_def1; lra).
  cbn [andb orb existsb map app fst snd fold_left]. rewrite !L.
  rewrite (N (10 - 11)) by (rewrite Rabs_left; lra).
  cbn [andb orb existsb map app fst snd fold_left bind]. rewrite !L.
  rewrite (N (10 - 12)) by (rewrite Rabs_left; lra). rewrite (N (11 - 12)) by (rewrite Rabs_left; lra).
  cbn [andb orb existsb map app fst snd fold_left bind]. rewrite !L.
  rewrite (Y (10 - (10 + 1 / 100))) by (apply Rabs_def1; lra). rewrite (Y (50 - (50 + 1 / 100))) by (apply Rabs_def1; lra).
  reflexivity.
Qed.

(* ---- C61 ---- *)
Theorem C61_outliers : forall (l : list (hpoint XR)) (sal : list R), l <> [] -> map hp_sal l = map Fin sal ->
  exists idx keep, outliers (map hp_sal l) = Ok idx /\
    remove_statical_outliers idx (hist_of l) = hist_of (filter keep l) /\
    (forall q x, In q l -> hp_sal q = Fin x -> (keep q = true <-> Rabs (x - rmean sal) <= 3 * rsd sal)) /\
    9 * INR (length l - length (filter keep l)) < INR (length l).
Proof. exact outliers_few. Qed.
Print Assumptions C61_outliers.
(* one of eleven casts is an outlier *)
Example C61_witness : let sal := 36 :: repeat 35 10 in 3 * rsd sal < Rabs (36 - rmean sal) /\ Rabs (35 - rmean sal) <= 3 * rsd sal.
Proof.
  cbv zeta. assert (M : rmean (36 :: repeat 35 10) = 386 / 11) by (unfold rmean; cbn [repeat fold_right length INR]; lra).
  assert (S : rsd (36 :: repeat 35 10) = sqrt (10 / 121)).
  { unfold rsd. rewrite M. f_equal. cbn [repeat map fold_right length INR]. lra. }
  rewrite M, S. pose proof (sqrt_pos (10 / 121)) as P. pose proof (sqrt_sqrt (10 / 121) ltac:(lra)) as Q.
  set (s := sqrt (10 / 121)) in *. clearbody s. rewrite Rabs_right by lra. rewrite Rabs_left by lra. split; nra.
Qed.

(* ---- C62 ---- *)
Theorem C62_window : forall (T : Type) (N : Num T) (l : list (hpoint T)) more p delta,
  process_profile_hist_variables (map hp_long l) (map hp_lat l) (map hp_date l) (map hp_z l ++ more) p
    (map (fun q => (hp_sal q, hp_pres q)) l) delta
  = Ok (hist_of (filter (in_window p delta) l)).
Proof. exact @window. Qed.
Print Assumptions C62_window.
Local Open Scope Z_scope.
Example C62_witness :
  let q s p n := mkHpoint s p (Some n) (Some (10 + n)) (Some (2000 + n)) (Some (4000 + n)) in
  filter (in_window (T := ZN) (Some 500) (Some 250))
    [q (Some 35) (Some 400) 1; q None (Some 500) 2; q (Some 36) (Some 750) 3; q (Some 37) (Some 749) 4; q (Some 34) None 5]
  = [q (Some 35) (Some 400) 1; q (Some 37) (Some 749) 4].
Proof. vm_compute. reflexivity. Qed.
