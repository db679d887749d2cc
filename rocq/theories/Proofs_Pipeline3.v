(* the paths of the default configuration *)
From Coq Require Import String Ascii.
From Coq Require Import ZArith List Bool Lia.
From Verif Require Import Num Np Helper MapProfile Mapping Config Calib Pipeline Spec_Mapping Spec_Pipeline Proofs_Mapping4 Proofs_Plots5.
Import ListNotations.
Local Open Scope string_scope.

Lemma append_nil s : s ++ "" = s.
Proof. induction s as [|c s IH]; [reflexivity|]. cbn. now rewrite IH. Qed.
Lemma slashless_split s : no_slash s -> forall cur, split_slash cur s = [cur ++ s].
Proof.
  induction s as [|c s IH]; intros H cur; cbn [split_slash].
  - now rewrite append_nil.
  - destruct H as [N H]. destruct (Ascii.eqb c "/") eqn:E; [apply Ascii.eqb_eq in E; contradiction|]. rewrite IH by exact H.
    f_equal. now rewrite append_assoc.
Qed.
Lemma slashless_app a b : no_slash a -> no_slash b -> no_slash (a ++ b).
Proof. induction a as [|c a IH]; [auto|]. intros [N A] B. split; [exact N|now apply IH]. Qed.
Lemma mat_not_dots a : a ++ ".mat" <> "" /\ a ++ ".mat" <> "." /\ a ++ ".mat" <> "..".
Proof.
  assert (L : 4 <= String.length (a ++ ".mat")) by (rewrite append_length; cbn; lia).
  repeat split; intros E; rewrite E in L; cbn in L; lia.
Qed.
Lemma mat_name pre n acc : no_slash pre -> no_slash n -> fold_left norm_step (split_slash "" (pre ++ n ++ ".mat")) acc = (acc ++ [(pre ++ n ++ ".mat")%string])%list.
Proof.
  intros HP HN. rewrite slashless_split by (apply slashless_app; [exact HP|apply slashless_app; [exact HN|cbn; repeat split; discriminate]]).
  cbn [fold_left append]. destruct (mat_not_dots (pre ++ n)) as (A & B & C). rewrite append_assoc in A, B, C. now apply norm_plain.
Qed.

Section Default.
  Variable cwd : list string.
  Variable float_dir : string.
  Hypothesis ND : no_directory float_dir.
  Variable n : string.
  Hypothesis HN : no_slash n.
  Lemma default_source : at_source cwd default_paths float_dir n = (cwd ++ ["data"; "float_source"; (n ++ ".mat")%string])%list.
  Proof.
    unfold at_source, source_path, default_paths, abspath. cbn [path_join cp_source_dir cp_source_postfix].
    rewrite !split_app, !fold_left_app. rewrite (norm_nothing _ _ ND). rewrite (mat_name "" n) by (exact I || exact HN).
    cbn. rewrite <- !app_assoc. reflexivity.
  Qed.
  Lemma default_load : at_load cwd default_paths float_dir n = (cwd ++ ["data"; "float_mapped"; ("map_" ++ n ++ ".mat")%string])%list.
  Proof.
    unfold at_load, load_path, mapping_paths, default_paths, abspath. cbn [path_join mp_directory mp_prefix mp_postfix cp_mapped_dir cp_mapped_prefix cp_mapped_postfix].
    rewrite !split_app, !fold_left_app. rewrite (norm_nothing _ _ ND). rewrite mat_name by (exact HN || (cbn; repeat split; discriminate)).
    cbn. rewrite <- !app_assoc. reflexivity.
  Qed.
  Lemma default_save : at_save cwd default_paths n = (cwd ++ ["data"; "float_mapped"; ("map_" ++ n ++ ".mat")%string])%list.
  Proof.
    unfold at_save, save_path, mapping_paths, default_paths, abspath. cbn [path_join mp_directory mp_prefix mp_postfix cp_mapped_dir cp_mapped_prefix cp_mapped_postfix].
    rewrite !split_app, !fold_left_app. rewrite mat_name by (exact HN || (cbn; repeat split; discriminate)).
    cbn. rewrite <- !app_assoc. reflexivity.
  Qed.
  Lemma default_set : at_set cwd default_paths float_dir n = (cwd ++ ["data"; "float_calib"; ("calseries_" ++ n ++ ".mat")%string])%list.
  Proof.
    unfold at_set, set_calseries_path, default_paths, abspath. cbn [path_join cp_calib_dir cp_calseries_prefix cp_calib_postfix].
    rewrite !split_app, !fold_left_app. rewrite (norm_nothing _ _ ND). rewrite mat_name by (exact HN || (cbn; repeat split; discriminate)).
    cbn. rewrite <- !app_assoc. reflexivity.
  Qed.
  Lemma default_series : at_series cwd default_paths float_dir n = (cwd ++ ["data"; "float_calib"; ("calseries_" ++ n ++ ".mat")%string])%list.
  Proof. exact default_set. Qed.
  Lemma default_calib : at_calib cwd default_paths float_dir n = (cwd ++ ["data"; "float_calib"; ("cal_" ++ n ++ ".mat")%string])%list.
  Proof.
    unfold at_calib, calib_path, default_paths, abspath. cbn [path_join cp_calib_dir cp_calib_prefix cp_calib_postfix].
    rewrite !split_app, !fold_left_app. rewrite (norm_nothing _ _ ND). rewrite mat_name by (exact HN || (cbn; repeat split; discriminate)).
    cbn. rewrite <- !app_assoc. reflexivity.
  Qed.
End Default.

Theorem default_separate cwd float_dir names : no_directory float_dir -> (forall n, In n names -> no_slash n) -> separate cwd default_paths float_dir names.
Proof.
  intros ND NS n m Hn Hm. assert (Sn := NS n Hn). assert (Sm := NS m Hm).
  rewrite !(default_source cwd float_dir ND), !(default_load cwd float_dir ND), !(default_save cwd), !(default_set cwd float_dir ND),
    !(default_series cwd float_dir ND), !(default_calib cwd float_dir ND) by assumption.
  assert (K : forall a b a' b', (cwd ++ ["data"; a; b])%list = (cwd ++ ["data"; a'; b'])%list -> a = a' /\ b = b').
  { intros a b a' b' E. apply app_inv_head in E. injection E as -> ->. auto. }
  split; [|split; [|split; [|split]]].
  - intros p [<-|[<-|[<-|[]]]] E; apply K in E as [E _]; discriminate E.
  - intros p [<-|[<-|[]]]; split; intros E; apply K in E as [E _]; discriminate E.
  - intros E; apply K in E as [E _]; discriminate E.
  - intros p [<-|[<-|[]]] E; apply K in E as [_ E]; discriminate E.
  - intros N. assert (J : forall pre, pre ++ n ++ ".mat" <> pre ++ m ++ ".mat").
    { intros pre E. apply append_inv_l, append_inv_r in E. contradiction. }
    repeat split; intros E; apply K in E as [_ E]; exact (J _ E).
Qed.
