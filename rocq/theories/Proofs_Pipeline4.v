(* C118, C119: the loop over the floats, and the whole script *)
From Coq Require Import String Ascii.
From Coq Require Import ZArith List Bool Lia.
From Verif Require Import Num Np Helper MapProfile Mapping Config Calib Pyplot Plots Dashboard Pipeline Spec_Mapping Spec_Pipeline
  Proofs_Mapping4 Proofs_Pipeline Proofs_Pipeline2.
Import ListNotations.

Section Loop.
  Context {T : Type} {NT : Num T} {NTT : NumT T}.
  Variable cwd : list string.
  Variable cp : cal_paths.
  Variable float_dir : string.
  Variable map_cfg : map_config T.
  Variable calc : string -> source T -> nat -> res (nat -> res (option (level_out T))).
  Variable argsort : list T -> list nat.
  Variable rng : Type.
  Variable fit : source T -> positions T -> Mapping.mapped T -> res (calfile T) -> rng -> res (calib T) * rng.
  Variable interp1d : list T -> list T -> T -> res T.
  Variable interp1d_nan : list T -> list T -> T -> T.
  Variable show_bounds : T * T -> string.
  Variable plots : @plot_paths T.
  Variable show_closes : bool.
  Notation at_source := (at_source cwd cp float_dir).
  Notation at_load := (at_load cwd cp float_dir).
  Notation at_save := (at_save cwd cp).
  Notation at_set := (at_set cwd cp float_dir).
  Notation at_series := (at_series cwd cp float_dir).
  Notation at_calib := (at_calib cwd cp float_dir).
  Notation alone := (alone cwd cp float_dir map_cfg calc argsort).
  Notation settings_of := (settings_of cwd cp float_dir argsort).
  Notation separate := (separate cwd cp float_dir).
  Notation pool_map := (pool_map cwd cp float_dir map_cfg calc argsort).
  Notation set_step := (set_step cwd cp float_dir argsort rng).
  Notation calib_step := (calib_step cwd cp float_dir rng fit).
  Notation dash_step := (dash_step cwd cp float_dir argsort rng interp1d interp1d_nan show_bounds plots show_closes).
  Notation float_step := (float_step cwd cp float_dir argsort rng fit interp1d interp1d_nan show_bounds plots show_closes).
  Notation float_loop := (float_loop cwd cp float_dir argsort rng fit interp1d interp1d_nan show_bounds plots show_closes).
  Notation script := (script cwd cp float_dir map_cfg calc argsort rng fit interp1d interp1d_nan show_bounds plots show_closes).
  Notation products := (products cwd cp float_dir map_cfg calc argsort fit).
  Implicit Types (w : disk T) (s : world T rng).

  Lemma set_cases n s :
    (exists c, settings_of (wd_disk s) n = Ok c /\
       set_step n s = (Ok tt, mkWorld (put_file (wd_disk s) (at_set n) (CSeries c)) (wd_rng s) (wd_session s))) \/
    exists e, set_step n s = (Raise e, s).
  Proof.
    unfold Spec_Pipeline.settings_of, Pipeline.set_step. fold (at_source n) (at_set n).
    destruct (as_source (wd_disk s (at_source n))) as [[src pos]|]; cbn [found bind fst]; [|right; eauto].
    unfold cal_source_of. destruct (set_calseries _ _ _) as [c|e]; [left|right]; eauto.
  Qed.
  Lemma calib_cases n s :
    (exists src pos d k g', as_source (wd_disk s (at_source n)) = Some (src, pos) /\ as_mapped (wd_disk s (at_load n)) = Some d /\
       fit src pos d (found (as_series (wd_disk s (at_series n)))) (wd_rng s) = (Ok k, g') /\
       calib_step n s = (Ok tt, mkWorld (put_file (wd_disk s) (at_calib n) (CCalib k)) g' (wd_session s))) \/
    exists e g', calib_step n s = (Raise e, mkWorld (wd_disk s) g' (wd_session s)).
  Proof.
    unfold Pipeline.calib_step, calc_piecewisefit. cbn [view fl_source fl_mapped fl_calseries fl_calib].
    fold (at_source n) (at_series n). change (abspath cwd (mapped_path cp float_dir n)) with (at_load n).
    destruct (as_source (wd_disk s (at_source n))) as [[src pos]|]; cbn [found bind]; [|right; eauto].
    destruct (as_mapped (wd_disk s (at_load n))) as [d|]; cbn [found bind fst snd]; [|right; eauto].
    destruct (fit src pos d _ (wd_rng s)) as [[k|e] g'] eqn:E; cbn [fl_calib].
    - left. exists src, pos, d, k, g'. unfold written. rewrite String.eqb_refl. auto.
    - right. eauto.
  Qed.
  Lemma dash_disk n s : wd_disk (snd (dash_step n s)) = wd_disk s.
  Proof. unfold Pipeline.dash_step. destruct (prun _ _ _) as [o ses]. reflexivity. Qed.

  (* one float *)
  Definition stages (w w' : disk T) (n : string) : Prop :=
    exists src pos d c k g g', as_source (w (at_source n)) = Some (src, pos) /\ as_mapped (w (at_load n)) = Some d /\ settings_of w n = Ok c /\
      fit src pos d (Ok c) g = (Ok k, g') /\ w' (at_set n) = Some (CSeries c) /\ w' (at_calib n) = Some (CCalib k).
  Hypothesis same_postfix : cp_mapped_postfix cp = cp_calib_postfix cp.
  Lemma series_set n : at_series n = at_set n.
  Proof. unfold Spec_Pipeline.at_series, Spec_Pipeline.at_set, calseries_path, set_calseries_path. now rewrite same_postfix. Qed.
  Definition kept_or_set (w w' : disk T) (n : string) : Prop :=
    w' (at_set n) = w (at_set n) \/ exists c, settings_of w n = Ok c /\ w' (at_set n) = Some (CSeries c).
  Lemma float_cases n s : separate [n] ->
    let '(r, s') := float_step n s in
    (r = Ok tt -> stages (wd_disk s) (wd_disk s') n) /\
    (forall q, q <> at_set n -> q <> at_calib n -> wd_disk s' q = wd_disk s q) /\
    kept_or_set (wd_disk s) (wd_disk s') n.
  Proof.
    intros SP. destruct (SP n n (or_introl eq_refl) (or_introl eq_refl)) as (A & B & _ & C & _).
    unfold Pipeline.float_step. destruct (set_cases n s) as [(c & E1 & ->)|(e & ->)]; cbn [andthen]; [|split; [discriminate|split; [auto|now left]]].
    set (s1 := mkWorld _ _ _).
    destruct (calib_cases n s1) as [(src & pos & d & k & g' & E2 & E3 & E4 & ->)|(e & g' & ->)]; cbn [andthen].
    - pose proof (dash_disk n (mkWorld (put_file (wd_disk s1) (at_calib n) (CCalib k)) g' (wd_session s1))) as E5.
      destruct (dash_step n _) as [r s']. cbn [snd wd_disk] in E5. split.
      + intros _. exists src, pos, d, c, k, (wd_rng s1), g'.
        assert (E6 : as_series (wd_disk s1 (at_series n)) = Some c) by (rewrite series_set; cbn [s1 wd_disk]; now rewrite put_same).
        rewrite E6 in E4. cbn [s1 wd_disk] in E2, E3.
        rewrite put_other in E2 by (intros E; apply (A (at_set n)); [right; now left|now symmetry]).
        rewrite put_other in E3 by (intros E; now destruct (B (at_load n) (or_introl eq_refl)) as [B1 _]; apply B1).
        repeat (split; [assumption|]). rewrite E5. split; [|apply put_same].
        rewrite put_other by (intros E; apply (C (at_set n)); [now left|now symmetry]). cbn [s1 wd_disk]. apply put_same.
      + split; [intros q N1 N2; rewrite E5, put_other by assumption; cbn [s1 wd_disk]; now rewrite put_other|].
        right. exists c. split; [exact E1|]. rewrite E5, put_other by (intros E; apply (C (at_set n)); [now left|now symmetry]).
        cbn [s1 wd_disk]. apply put_same.
    - split; [discriminate|]. split; [intros q N1 N2; cbn [wd_disk s1]; now rewrite put_other|].
      right. exists c. split; [exact E1|]. cbn [s1 wd_disk]. apply put_same.
  Qed.

  Lemma separate_part (a b : list string) : separate b -> (forall n, In n a -> In n b) -> separate a.
  Proof. intros S H n m Hn Hm. apply S; auto. Qed.

  Definition loop_end (names : list string) (w : disk T) (r : res unit) (w' : disk T) : Prop :=
    exists a b, names = (a ++ b)%list /\ (forall n, In n a -> stages w w' n) /\
      (r = Ok tt -> b = []) /\ (forall e, r = Raise e -> b <> []) /\
      (forall q, (forall n, In n (a ++ firstn 1 b) -> q <> at_set n /\ q <> at_calib n) -> w' q = w q) /\
      forall n, In n names -> kept_or_set w w' n.
  Lemma loop_cases names : forall s r s', NoDup names -> separate names -> float_loop names s = (r, s') ->
    loop_end names (wd_disk s) r (wd_disk s').
  Proof.
    induction names as [|n l IH]; intros s r s' ND SP E; cbn [Pipeline.float_loop] in E.
    - injection E as <- <-. exists [], []. repeat split; try discriminate; intros n [].
    - pose proof (float_cases n s (separate_part [n] _ SP (fun m H => match H with or_introl E => or_introl E | or_intror F => match F with end end))) as F.
      destruct (float_step n s) as [[[]|e] s1]; cbn [andthen] in E; destruct F as (F1 & F2 & F3).
      + inversion ND as [|? ? N1 ND1]; subst. destruct (IH s1 r s' ND1 (separate_part l _ SP (fun m H => or_intror H)) E) as (a & b & -> & HA & HB & HC & HD & HK).
        exists (n :: a), b. split; [reflexivity|].
        assert (NE : forall m, In m a -> m <> n) by (intros m Hm ->; apply N1, in_or_app; now left).
        assert (FS : forall m, In m (a ++ firstn 1 b) -> In m (n :: a ++ b)).
        { intros m Hm. right. apply in_app_or in Hm as [Hm|Hm]; apply in_or_app; [now left|right]. destruct b as [|x b]; [contradiction|]. destruct Hm as [<-|[]]. now left. }
        assert (NF : forall m, In m (a ++ firstn 1 b) -> m <> n).
        { intros m Hm ->. apply N1. apply in_app_or in Hm as [Hm|Hm]; apply in_or_app; [now left|right]. destruct b as [|x b]; [contradiction|]. destruct Hm as [<-|[]]. now left. }
        split; [|split; [exact HB|split; [exact HC|split]]].
        * intros m [<-|Hm].
          -- destruct (F1 eq_refl) as (src & pos & d & c & k & g & g' & A1 & A2 & A3 & A4 & A5 & A6).
             exists src, pos, d, c, k, g, g'. repeat (split; [assumption|]). split.
             ++ rewrite HD; [exact A5|]. intros m Hm. destruct (SP n m (or_introl eq_refl) (FS m Hm)) as (_ & _ & _ & _ & S5).
                destruct (SP m n (FS m Hm) (or_introl eq_refl)) as (_ & _ & _ & S4 & _).
                split; [apply (S5 (not_eq_sym (NF m Hm)))|]. intros Q. exact (S4 (at_set n) (or_introl eq_refl) (eq_sym Q)).
             ++ rewrite HD; [exact A6|]. intros m Hm. destruct (SP n m (or_introl eq_refl) (FS m Hm)) as (_ & _ & _ & S4 & S5).
                split; [exact (S4 (at_set m) (or_introl eq_refl))|apply (S5 (not_eq_sym (NF m Hm)))].
          -- destruct (HA m Hm) as (src & pos & d & c & k & g & g' & A1 & A2 & A3 & A4 & A5 & A6).
             assert (Hm' : In m (n :: a ++ b)) by (right; apply in_or_app; now left).
             destruct (SP n m (or_introl eq_refl) Hm') as (S1 & S2 & _ & S4 & S5).
             assert (NS : wd_disk s1 (at_source m) = wd_disk s (at_source m)).
             { apply F2; intros Q; [apply (S1 (at_set n))|apply (S1 (at_calib n))]; [right; now left|now symmetry|right; right; now left|now symmetry]. }
             assert (NL : wd_disk s1 (at_load m) = wd_disk s (at_load m)).
             { destruct (S2 (at_load m) (or_introl eq_refl)) as [S6 S7]. apply F2; intros Q; [apply S6|apply S7]; now symmetry. }
             assert (NT' : wd_disk s1 (at_set m) = wd_disk s (at_set m)).
             { destruct (S5 (not_eq_sym (NE m Hm))) as (_ & _ & S6 & _). apply F2; intros Q; [exact (S6 (eq_sym Q))|exact (S4 (at_set m) (or_introl eq_refl) (eq_sym Q))]. }
             unfold Spec_Pipeline.settings_of in A3. rewrite NS in A1, A3. rewrite NL in A2. rewrite NT' in A3.
             exists src, pos, d, c, k, g, g'. repeat (split; [assumption|]). assumption.
        * intros q Hq. destruct (Hq n (or_introl eq_refl)) as [Q1 Q2]. rewrite HD; [now apply F2|]. intros m Hm. apply Hq. now right.
        * intros m [<-|Hm].
          -- assert (E1 : wd_disk s' (at_set n) = wd_disk s1 (at_set n)); [|unfold kept_or_set in *; now rewrite E1].
             apply HD. intros m Hm. destruct (SP n m (or_introl eq_refl) (FS m Hm)) as (_ & _ & _ & _ & S5).
             destruct (SP m n (FS m Hm) (or_introl eq_refl)) as (_ & _ & _ & S4 & _).
             split; [apply (S5 (not_eq_sym (NF m Hm)))|]. intros Q. exact (S4 (at_set n) (or_introl eq_refl) (eq_sym Q)).
          -- assert (NM : m <> n) by (intros ->; contradiction).
             destruct (SP n m (or_introl eq_refl) (or_intror Hm)) as (S1 & S2 & _ & S4 & S5). destruct (S5 (not_eq_sym NM)) as (_ & _ & S6 & _).
             assert (NS : wd_disk s1 (at_source m) = wd_disk s (at_source m)).
             { apply F2; intros Q; [apply (S1 (at_set n))|apply (S1 (at_calib n))]; [right; now left|now symmetry|right; right; now left|now symmetry]. }
             assert (NT' : wd_disk s1 (at_set m) = wd_disk s (at_set m)).
             { apply F2; intros Q; [exact (S6 (eq_sym Q))|exact (S4 (at_set m) (or_introl eq_refl) (eq_sym Q))]. }
             destruct (HK m Hm) as [K|(c & K1 & K2)]; [left; congruence|right; exists c; split; [|exact K2]].
             unfold Spec_Pipeline.settings_of in *. now rewrite NS, NT' in K1.
      + injection E as <- <-. exists [], (n :: l). split; [reflexivity|]. split; [intros m []|]. split; [discriminate|]. split; [discriminate|]. split.
        * intros q Hq. destruct (Hq n (or_introl eq_refl)). now apply F2.
        * intros m [<-|Hm]; [exact F3|left]. assert (NM : m <> n) by (intros ->; inversion ND; contradiction).
          destruct (SP n m (or_introl eq_refl) (or_intror Hm)) as (_ & _ & _ & S4 & S5). destruct (S5 (not_eq_sym NM)) as (_ & _ & S6 & _).
          apply F2; intros Q; [exact (S6 (eq_sym Q))|exact (S4 (at_set m) (or_introl eq_refl) (eq_sym Q))].
  Qed.

  (* ---- the script ---- *)
  Hypothesis no_dir : no_directory float_dir.
  Lemma load_save n : at_load n = at_save n.
  Proof. now apply paths_agree. Qed.

  (* what was mapped, then what was calibrated *)
  Lemma script_cases cpus names s r s' : NoDup names -> separate names -> script cpus names s r s' ->
    (cpus <= 1 /\ r = Raise ValueError /\ s' = s) \/
    (1 < cpus /\ exists e, r = Raise e /\ pool_map names (wd_disk s) (Raise e) (wd_disk s') /\ wd_rng s' = wd_rng s /\ wd_session s' = wd_session s) \/
    (1 < cpus /\ exists w, pool_map names (wd_disk s) (Ok tt) w /\ loop_end names w r (wd_disk s')).
  Proof.
    intros ND SP H. destruct H as [H|e w H P|w r s' H P E].
    - left. auto.
    - right. left. split; [exact H|]. exists e. auto.
    - right. right. split; [exact H|]. exists w. split; [exact P|]. exact (loop_cases names _ _ _ ND SP E).
  Qed.
  Lemma pool_stages names w0 w w' n : NoDup names -> separate names -> pool_map names w0 (Ok tt) w -> In n names -> stages w w' n ->
    w' (at_save n) = w (at_save n) -> products w0 w' n.
  Proof.
    intros ND SP P Hn (src & pos & d & c & k & g & g' & A1 & A2 & A3 & A4 & A5 & A6) ES.
    destruct (pool_results cwd cp float_dir map_cfg calc argsort names w0 _ w ND SP P) as (B1 & _ & _ & B4).
    destruct (B1 eq_refl n Hn) as (d' & E1 & E2).
    assert (NS : w (at_source n) = w0 (at_source n)).
    { apply B4. intros m Hm Q. destruct (SP m n Hm Hn) as (S1 & _). apply (S1 (at_save m)); [now left|now symmetry]. }
    assert (NT' : w (at_set n) = w0 (at_set n)).
    { apply B4. intros m Hm Q. destruct (SP n m Hn Hm) as (_ & S2 & _). destruct (S2 (at_save m)) as [S3 _]; [right; now left|]. now apply S3. }
    rewrite load_save, E2 in A2. cbn [as_mapped] in A2. injection A2 as <-.
    unfold Spec_Pipeline.settings_of in A3. rewrite NS in A1, A3. rewrite NT' in A3.
    exists src, pos, d', c, k, g, g'. split.
    { unfold as_source in A1. destruct (w0 (at_source n)) as [[]|]; try discriminate. congruence. }
    split; [exact E1|]. split; [exact A3|]. split; [exact A4|]. split; [now rewrite ES|]. auto.
  Qed.

  Theorem script_products cpus names s s' : NoDup names -> separate names -> script cpus names s (Ok tt) s' ->
    (forall n, In n names -> products (wd_disk s) (wd_disk s') n) /\
    (forall q, (forall n, In n names -> q <> at_save n /\ q <> at_set n /\ q <> at_calib n) -> wd_disk s' q = wd_disk s q).
  Proof.
    intros ND SP H. destruct (script_cases _ _ _ _ _ ND SP H) as [(_ & E & _)|[(_ & e & E & _)|(_ & w & P & a & b & EN & HA & HB & _ & HD & _)]]; try discriminate.
    rewrite (HB eq_refl), app_nil_r in EN. subst a. rewrite (HB eq_refl) in HD. cbn [firstn] in HD. rewrite app_nil_r in HD. split.
    - intros n Hn. apply (pool_stages names _ w); auto. apply HD. intros m Hm. destruct (SP m n Hm Hn) as (_ & S2 & _).
      destruct (S2 (at_save n)) as [S3 S4]; [right; now left|]. split; intros Q; [apply S3|apply S4]; now symmetry.
    - intros q Hq. destruct (pool_results cwd cp float_dir map_cfg calc argsort names _ _ w ND SP P) as (_ & _ & _ & B4).
      rewrite HD by (intros n Hn; apply (Hq n Hn)). apply B4. intros n Hn. apply (Hq n Hn).
  Qed.

  Theorem script_one_cpu cpus names s r s' : cpus <= 1 -> script cpus names s r s' -> r = Raise ValueError /\ s' = s.
  Proof. intros L H. destruct H as [H|e w H P|w r s' H P E]; [auto|lia|lia]. Qed.

  (* a float that cannot be mapped *)
  Theorem script_unmapped cpus names s r s' n e : NoDup names -> separate names -> 1 < cpus -> In n names -> fst (alone (wd_disk s) n) = Raise e ->
    script cpus names s r s' ->
    (exists m e', r = Raise e' /\ In m names /\ fst (alone (wd_disk s) m) = Raise e') /\
    wd_rng s' = wd_rng s /\ wd_session s' = wd_session s /\
    forall q, (forall m, In m names -> q <> at_save m) -> wd_disk s' q = wd_disk s q.
  Proof.
    intros ND SP L Hn F H. destruct H as [H|e' w H P|w r s' H P E]; [lia| |].
    - destruct (pool_results cwd cp float_dir map_cfg calc argsort names _ _ w ND SP P) as (_ & B2 & _ & B4). cbn [wd_disk wd_rng wd_session].
      destruct (B2 e' eq_refl) as (m & Hm & Em). split; [exists m, e'; auto|]. auto.
    - destruct (pool_results cwd cp float_dir map_cfg calc argsort names _ _ w ND SP P) as (B1 & _ & _ & _).
      destruct (B1 eq_refl n Hn) as (d & E1 & _). rewrite E1 in F. discriminate.
  Qed.
  (* a float that cannot be calibrated or plotted: the floats before it are done, those after it are only mapped *)
  Theorem script_stopped cpus names s e s' : NoDup names -> separate names -> 1 < cpus ->
    (forall n, In n names -> fst (alone (wd_disk s) n) = Ok tt) -> script cpus names s (Raise e) s' ->
    exists a n b, names = (a ++ n :: b)%list /\ (forall m, In m a -> products (wd_disk s) (wd_disk s') m) /\
      (forall m, In m names -> exists d, alone (wd_disk s) m = (Ok tt, Some d) /\ wd_disk s' (at_save m) = Some (CMapped d)) /\
      forall m, In m b -> wd_disk s' (at_set m) = wd_disk s (at_set m) /\ wd_disk s' (at_calib m) = wd_disk s (at_calib m).
  Proof.
    intros ND SP L AL H. destruct (script_cases _ _ _ _ _ ND SP H) as [(C & _)|[(_ & e' & E & P & _)|(_ & w & P & a & b & EN & HA & _ & HC & HD & _)]]; [lia| |].
    - apply (pool_succeeds cwd cp float_dir map_cfg calc argsort names _ _ _ ND SP P) in AL. discriminate.
    - destruct b as [|n b]; [exfalso; now apply (HC e)|]. cbn [firstn] in HD.
      destruct (pool_results cwd cp float_dir map_cfg calc argsort names _ _ w ND SP P) as (B1 & _ & _ & B4).
      assert (IN : forall m, In m (a ++ [n]) -> In m names).
      { intros m Hm. rewrite EN. apply in_app_or in Hm as [Hm|[<-|[]]]; [apply in_or_app; now left|apply in_elt]. }
      assert (SV : forall m, In m names -> wd_disk s' (at_save m) = w (at_save m)).
      { intros m Hm. apply HD. intros x Hx. destruct (SP x m (IN x Hx) Hm) as (_ & S2 & _). destruct (S2 (at_save m)) as [S3 S4]; [right; now left|].
        split; intros Q; [apply S3|apply S4]; now symmetry. }
      exists a, n, b. split; [exact EN|]. split; [|split].
      + intros m Hm. assert (Hm' : In m names) by (apply IN, in_or_app; now left). apply (pool_stages names _ w); auto.
      + intros m Hm. rewrite (SV m Hm). now apply B1.
      + intros m Hm. assert (Hm' : In m names) by (rewrite EN; apply in_or_app; right; now right).
        assert (NE : forall x, In x (a ++ [n]) -> x <> m).
        { intros x Hx ->. rewrite EN in ND. change (n :: b) with ([n] ++ b)%list in ND. rewrite app_assoc in ND.
          apply in_split in Hm as (u & v & ->). rewrite app_assoc in ND. apply NoDup_remove_2 in ND. apply ND.
          apply in_or_app. left. apply in_or_app. now left. }
        split.
        * rewrite HD, B4; [reflexivity| |].
          -- intros x Hx Q. destruct (SP m x Hm' Hx) as (_ & S2 & _). destruct (S2 (at_save x)) as [S3 _]; [right; now left|]. now apply S3.
          -- intros x Hx. destruct (SP x m (IN x Hx) Hm') as (_ & _ & _ & S4 & S5).
             split; [intros Q; symmetry in Q; revert Q; apply (S5 (NE x Hx))|intros Q; symmetry in Q; revert Q; apply S4; now left].
        * rewrite HD, B4; [reflexivity| |].
          -- intros x Hx Q. destruct (SP m x Hm' Hx) as (_ & S2 & _). destruct (S2 (at_save x)) as [_ S3]; [right; now left|]. now apply S3.
          -- intros x Hx. destruct (SP m x Hm' (IN x Hx)) as (_ & _ & _ & S4 & S5).
             split; [apply S4; now left|apply (S5 (not_eq_sym (NE x Hx)))].
  Qed.
End Loop.
