(* C117: the floats mapped by a pool *)
From Coq Require Import String Ascii.
From Coq Require Import ZArith List Bool Lia.
From Verif Require Import Num Np Helper MapProfile Mapping Config Calib Pipeline Spec_Mapping Spec_Pipeline Proofs_Mapping4 Proofs_Pipeline.
Import ListNotations.

Section Mapping.
  Context {T : Type} {NT : Num T}.
  Variable cwd : list string.
  Variable cp : cal_paths.
  Variable float_dir : string.
  Variable map_cfg : map_config T.
  Variable calc : string -> source T -> nat -> res (nat -> res (option (level_out T))).
  Variable argsort : list T -> list nat.
  Notation at_source := (at_source cwd cp float_dir).
  Notation at_load := (at_load cwd cp float_dir).
  Notation at_save := (at_save cwd cp).
  Notation task := (mapping_act cwd cp float_dir map_cfg calc argsort).
  Notation alone := (alone cwd cp float_dir map_cfg calc argsort).
  Notation pool_map := (pool_map cwd cp float_dir map_cfg calc argsort).
  Notation in_turn := (in_turn cwd cp float_dir map_cfg calc argsort).
  Notation separate := (separate cwd cp float_dir).
  Implicit Types w : disk T.

  Definition reads_of (n : string) := [at_source n; at_load n].
  Definition writes_of (n : string) := [at_save n].
  Lemma task_within n : within (reads_of n) (writes_of n) (task n).
  Proof.
    cbn [mapping_act within]. split; [now left|]. intros o. destruct (as_source o) as [[s p]|]; cbn [within]; [|exact I].
    split; [right; now left|]. intros o'. destruct (Mapping.run _ _ _ _ _ _); cbn [within]; [split; [now left|exact I]|exact I].
  Qed.
  Lemma task_steps n : at_most 4 (task n).
  Proof.
    cbn [mapping_act at_most]. intros o. destruct (as_source o) as [[s p]|]; cbn [at_most]; [|exact I].
    intros o'. destruct (Mapping.run _ _ _ _ _ _); exact I.
  Qed.
  Lemma task_apart names n m p : separate names -> In n names -> In m names -> n <> m -> In p (writes_of n) -> ~ In p (reads_of m ++ writes_of m).
  Proof.
    intros SP Hn Hm N [<-|[]]. destruct (SP n m Hn Hm) as (A & _ & _ & _ & B). destruct (B N) as (B1 & B2 & _).
    intros [E|[E|[E|[]]]]; [apply (A (at_save n) (or_introl eq_refl)); now symmetry|now apply B2|now apply B1].
  Qed.

  (* a task without others *)
  Lemma run_task w n :
    (exists d, alone w n = (Ok tt, Some d) /\ run_act (task n) w = (Ok tt, put_file w (at_save n) (CMapped d))) \/
    (exists e, fst (alone w n) = Raise e /\ run_act (task n) w = (Raise e, w)).
  Proof.
    unfold Spec_Pipeline.alone. cbn [mapping_act run_act]. fold (at_source n) (at_load n). destruct (as_source (w (at_source n))) as [[s p]|]; cbn [run_act].
    - unfold update_salinity_mapping, update. fold (at_load n) (at_save n). unfold mapped_files at 1.
      destruct (Mapping.run _ _ _ _ _ _) as [d|e]; cbn [run_act].
      + left. exists d. rewrite path_eqb_refl. auto.
      + right. exists e. auto.
    - right. exists FileNotFoundError. auto.
  Qed.
  Lemma run_outcome w n : fst (run_act (task n) w) = fst (alone w n).
  Proof. destruct (run_task w n) as [(d & -> & ->)|(e & -> & ->)]; reflexivity. Qed.
  Lemma run_result w n : fst (alone w n) = Ok tt -> exists d, snd (alone w n) = Some d /\ snd (run_act (task n) w) (at_save n) = Some (CMapped d).
  Proof.
    destruct (run_task w n) as [(d & -> & ->)|(e & -> & _)]; [|discriminate]. intros _. exists d. split; [reflexivity|]. apply put_same.
  Qed.
  Lemma run_failure w n e : fst (alone w n) = Raise e -> snd (run_act (task n) w) = w.
  Proof. destruct (run_task w n) as [(d & -> & _)|(e' & _ & ->)]; [discriminate|reflexivity]. Qed.

  Lemma pool_results names w r w' : NoDup names -> separate names -> pool_map names w r w' ->
    (r = Ok tt -> forall n, In n names -> exists d, alone w n = (Ok tt, Some d) /\ w' (at_save n) = Some (CMapped d)) /\
    (forall e, r = Raise e -> exists n, In n names /\ fst (alone w n) = Raise e) /\
    (forall n, In n names -> (exists d, alone w n = (Ok tt, Some d) /\ w' (at_save n) = Some (CMapped d)) \/
       w' (at_save n) = w (at_save n) /\ ((exists e, fst (alone w n) = Raise e) \/
                                         exists m e, before names m n /\ fst (alone w m) = Raise e)) /\
    (forall q, (forall n, In n names -> q <> at_save n) -> w' q = w q).
  Proof.
    intros ND SP (chunks & s & EC & ST & FI & OC & <-).
    assert (AP := fun n m p => task_apart names n m p SP).
    assert (G := pool_steps_good task reads_of writes_of task_within names ND AP w chunks _ _ EC ST
                   (start_good task reads_of writes_of task_within names w chunks)).
    destruct (pool_result task reads_of writes_of names w chunks s r EC G FI OC) as (A & B & C & D).
    assert (FD : forall n, finished task writes_of w (pl_disk s) n -> exists d, alone w n = (Ok tt, Some d) /\ pl_disk s (at_save n) = Some (CMapped d)).
    { intros n [E AG]. rewrite run_outcome in E. destruct (run_result w n E) as (d & E1 & E2). exists d. split.
      - destruct (alone w n) as [a b]. cbn in E, E1. congruence.
      - rewrite (AG (at_save n) (or_introl eq_refl)). exact E2. }
    split; [intros E n Hn; apply FD, A; assumption|]. split; [|split].
    - intros e E. destruct (B e E) as (n & Hn & O). rewrite run_outcome in O. exists n. auto.
    - intros n Hn. destruct (C n Hn) as [F|[((e & O) & AG)|(U & m & e & BF & O)]]; [left; now apply FD|right|right].
      + rewrite run_outcome in O. split; [|left; now exists e]. rewrite (AG (at_save n) (or_introl eq_refl)). now rewrite (run_failure w n e O).
      + rewrite run_outcome in O. split; [apply U, in_or_app; right; now left|right; exists m, e; auto].
    - intros q Hq. apply D. intros n Hn [E|[]]. exact (Hq n Hn (eq_sym E)).
  Qed.

  (* one after another *)
  Lemma in_turn_acts names : forall w, in_turn names w = run_acts (map task names) w.
  Proof.
    induction names as [|n l IH]; intros w; [reflexivity|]. cbn [Spec_Pipeline.in_turn map run_acts].
    destruct (run_task w n) as [(d & E1 & E2)|(e & E1 & E2)].
    - rewrite E1, E2. apply IH.
    - rewrite E2. destruct (alone w n) as [a b]. cbn in E1. now rewrite E1.
  Qed.
  Lemma in_turn_pool names w : pool_map names w (fst (in_turn names w)) (snd (in_turn names w)).
  Proof.
    destruct (single_all (map task names) w) as (s & A & B & C & D). exists [names], s. rewrite in_turn_acts.
    split; [cbn; apply app_nil_r|]. split; [exact A|]. auto.
  Qed.

  Theorem parallel_sequential names w w' : NoDup names -> separate names -> pool_map names w (Ok tt) w' ->
    fst (in_turn names w) = Ok tt /\ forall q, w' q = snd (in_turn names w) q.
  Proof.
    intros ND SP P. destruct (pool_results names w _ w' ND SP P) as (A & _ & _ & D).
    destruct (pool_results names w _ _ ND SP (in_turn_pool names w)) as (A1 & B1 & _ & D1).
    assert (E : fst (in_turn names w) = Ok tt).
    { destruct (fst (in_turn names w)) as [[]|e]; [reflexivity|]. destruct (B1 e eq_refl) as (n & Hn & F).
      destruct (A eq_refl n Hn) as (d & E & _). rewrite E in F. discriminate. }
    split; [exact E|]. intros q. destruct (in_dec (list_eq_dec string_dec) q (map at_save names)) as [Hq|Hq].
    - apply in_map_iff in Hq as (n & <- & Hn). destruct (A eq_refl n Hn) as (d & E2 & ->). destruct (A1 E n Hn) as (d' & E3 & ->). congruence.
    - assert (NQ : forall n, In n names -> q <> at_save n) by (intros n Hn ->; apply Hq, in_map; exact Hn). rewrite (D q NQ), (D1 q NQ). reflexivity.
  Qed.
  Theorem pool_succeeds names w r w' : NoDup names -> separate names -> pool_map names w r w' ->
    (r = Ok tt <-> forall n, In n names -> fst (alone w n) = Ok tt).
  Proof.
    intros ND SP P. destruct (pool_results names w _ w' ND SP P) as (A & B & _ & _). split.
    - intros E n Hn. destruct (A E n Hn) as (d & -> & _). reflexivity.
    - intros K. destruct r as [[]|e]; [reflexivity|]. destruct (B e eq_refl) as (n & Hn & F). rewrite (K n Hn) in F. discriminate.
  Qed.

  (* the pool comes to an end *)
  Lemma task_bound l : chunk_bound (map task l) (4 * length l).
  Proof.
    induction l as [|n l IH]; [constructor|]. cbn [map length]. replace (4 * S (length l)) with (4 + 4 * length l) by lia.
    constructor; [apply task_steps|exact IH].
  Qed.
  Lemma start_bound chunks w : pool_bound (pl_chunks (pool_start cwd cp float_dir map_cfg calc argsort chunks w)) (4 * length (concat chunks)).
  Proof.
    cbn [pool_start pl_chunks]. induction chunks as [|l chunks IH]; [constructor|]. cbn [map concat]. rewrite app_length, Nat.mul_add_distr_l.
    constructor; [apply task_bound|exact IH].
  Qed.
  Theorem pool_terminates chunks w k s : takes k (pool_start cwd cp float_dir map_cfg calc argsort chunks w) s ->
    k <= 4 * length (concat chunks) /\ (pool_finished s \/ exists t, pool_step s t).
  Proof.
    intros H. split; [exact (takes_bound _ _ _ H _ (start_bound chunks w))|].
    assert (S : sane s).
    { apply (sane_steps _ s (proj2 (takes_steps _ _) (ex_intro _ k H))). apply Forall_forall. intros c Hc. cbn in Hc.
      apply in_map_iff in Hc as (l & <- & _). now left. }
    assert (D : forall c : chunk T, {ch_todo c = []} + {ch_todo c <> []}) by (intros [[|x l] f]; [left; reflexivity|right; discriminate]).
    destruct (Forall_dec _ D (pl_chunks s)) as [F|F].
    - now left.
    - right. apply unfinished; assumption.
  Qed.
End Mapping.
