(* the pool: whatever the order of the steps, every float's file is what mapping it alone gives *)
From Coq Require Import String Ascii.
From Coq Require Import ZArith List Bool Lia.
From Verif Require Import Num Np Helper MapProfile Mapping Config Calib Pipeline Spec_Mapping Spec_Pipeline Proofs_Mapping4.
Import ListNotations.

Lemma split_two {A} (a b c d : list A) (x y : A) : a ++ x :: b = c ++ y :: d ->
  (exists e, c = a ++ x :: e /\ b = e ++ y :: d) \/ (a = c /\ x = y /\ b = d) \/ (exists e, a = c ++ y :: e /\ d = e ++ x :: b).
Proof.
  revert c. induction a as [|z a IH]; intros [|u c] E; cbn in E.
  - injection E as -> ->. auto.
  - injection E as -> E. left. exists c. auto.
  - injection E as -> <-. right. right. exists a. auto.
  - injection E as -> E. destruct (IH c E) as [(e & -> & ->)|[(-> & -> & ->)|(e & -> & ->)]]; [left; exists e; auto|auto|right; right; exists e; auto].
Qed.

Lemma nodup_right {A} (a b : list A) : NoDup (a ++ b) -> NoDup b.
Proof. induction a as [|x a IH]; [auto|]. intros H. inversion H; auto. Qed.
Lemma nodup_left {A} (a b : list A) : NoDup (a ++ b) -> NoDup a.
Proof.
  induction a as [|x a IH]; intros H; [constructor|]. inversion H as [|? ? N D]; subst. constructor; [|now apply IH].
  intros Hx. apply N, in_or_app. now left.
Qed.

Section Acts.
  Context {T : Type}.
  Implicit Types (w : disk T) (a : act T).

  (* the process run without others *)
  Fixpoint run_act (a : act T) (w : disk T) : res unit * disk T :=
    match a with
    | Done r => (r, w)
    | ReadFile p k => run_act (k (w p)) w
    | WriteFile p c k => run_act k (put_file w p c)
    end.
  Fixpoint within (R W : list (list string)) (a : act T) : Prop :=
    match a with
    | Done _ => True
    | ReadFile p k => In p R /\ forall o, within R W (k o)
    | WriteFile p c k => In p W /\ within R W k
    end.
  Definition agree (F : list (list string)) (w w' : disk T) : Prop := forall p, In p F -> w p = w' p.

  Lemma put_same w p c : put_file w p c p = Some c.
  Proof. unfold put_file. now rewrite path_eqb_refl. Qed.
  Lemma put_other w p c q : q <> p -> put_file w p c q = w q.
  Proof. intros N. unfold put_file. now rewrite (path_eqb_neq q p N). Qed.
  Lemma put_agree F w w' p c : agree F w w' -> agree F (put_file w p c) (put_file w' p c).
  Proof. intros A q Fq. unfold put_file. destruct (path_eqb q p); [reflexivity|now apply A]. Qed.

  Lemma run_agree R W a w w' : within R W a -> agree (R ++ W) w w' ->
    fst (run_act a w) = fst (run_act a w') /\ agree (R ++ W) (snd (run_act a w)) (snd (run_act a w')).
  Proof.
    revert w w'. induction a as [r|p k IH|p c k IH]; intros w w' H A; cbn [run_act].
    - split; [reflexivity|exact A].
    - destruct H as [Hp H]. rewrite (A p (in_or_app _ _ _ (or_introl Hp))). now apply IH.
    - destruct H as [Hp H]. apply IH; [exact H|now apply put_agree].
  Qed.
  Lemma run_outside R W a w p : within R W a -> ~ In p W -> snd (run_act a w) p = w p.
  Proof.
    revert w. induction a as [r|q k IH|q c k IH]; intros w H N; cbn [run_act]; [reflexivity|apply IH; [apply H|exact N]|].
    destruct H as [Hq H]. rewrite IH by assumption. apply put_other. intros ->. contradiction.
  Qed.
End Acts.

(* ---- the pool with any programs whose footprints do not meet ---- *)
Section Pool.
  Context {T : Type}.
  Variable task : string -> act T.
  Variables R W : string -> list (list string).
  Hypothesis Htask : forall n, within (R n) (W n) (task n).
  Variable names : list string.
  Hypothesis ND : NoDup names.
  Hypothesis apart : forall n m p, In n names -> In m names -> n <> m -> In p (W n) -> ~ In p (R m ++ W m).
  Variable w0 : disk T.
  Notation outcome n := (fst (run_act (task n) w0)).
  Notation result n := (snd (run_act (task n) w0)).

  Definition untouched (w : disk T) (n : string) : Prop := agree (R n ++ W n) w w0.
  Definition finished (w : disk T) (n : string) : Prop := outcome n = Ok tt /\ agree (W n) w (result n).
  (* the floats of a chunk, and where it is *)
  Inductive good (w : disk T) : list string -> chunk T -> Prop :=
    | good_end l : Forall (finished w) l -> good w l (mkChunk [] None)
    | good_at l n r a : Forall (finished w) l -> within (R n) (W n) a ->
        fst (run_act a w) = outcome n -> agree (R n ++ W n) (snd (run_act a w)) (result n) ->
        Forall (untouched w) r -> good w (l ++ n :: r) (mkChunk (a :: map task r) None)
    | good_failed l n r e : Forall (finished w) l -> outcome n = Raise e -> agree (W n) w (result n) ->
        Forall (untouched w) r -> good w (l ++ n :: r) (mkChunk [] (Some e)).

  Lemma good_start w l done : Forall (finished w) done -> Forall (untouched w) l -> good w (done ++ l) (mkChunk (map task l) None).
  Proof.
    intros D U. destruct l as [|n r]; [rewrite app_nil_r; now apply good_end|]. inversion U as [|? ? Un Ur]; subst.
    cbn [map]. destruct (run_agree _ _ _ _ _ (Htask n) Un). apply good_at; auto.
  Qed.

  (* a write of another float *)
  Lemma good_other w m p c l ch : In m names -> In p (W m) -> (forall n, In n l -> In n names /\ n <> m) ->
    good w l ch -> good (put_file w p c) l ch.
  Proof.
    intros Hm Hp HL G.
    assert (K : forall n, In n l -> agree (R n ++ W n) (put_file w p c) w).
    { intros n Hn q Hq. destruct (HL n Hn) as [Hn1 Hn2]. apply put_other. intros ->. exact (apart m n p Hm Hn1 (not_eq_sym Hn2) Hp Hq). }
    assert (FD : forall n, In n l -> finished w n -> finished (put_file w p c) n).
    { intros n Hn [E A]. split; [exact E|]. intros q Hq. rewrite (K n Hn q) by (apply in_or_app; now right). now apply A. }
    assert (UT : forall n, In n l -> untouched w n -> untouched (put_file w p c) n).
    { intros n Hn U q Hq. rewrite (K n Hn q Hq). now apply U. }
    destruct G as [l D|l n r a D HW E A U|l n r e D E A U].
    - apply good_end. rewrite Forall_forall in *. intros n Hn. apply FD; auto.
    - destruct (run_agree _ _ _ _ _ HW (K n (in_elt n l r))) as [E1 A1].
      apply good_at; [| exact HW|congruence| |].
      + rewrite Forall_forall in *. intros x Hx. apply FD; [apply in_or_app; now left|auto].
      + intros q Hq. rewrite (A1 q Hq). now apply A.
      + rewrite Forall_forall in *. intros x Hx. apply UT; [apply in_or_app; right; now right|auto].
    - apply good_failed; [|exact E| |].
      + rewrite Forall_forall in *. intros x Hx. apply FD; [apply in_or_app; now left|auto].
      + intros q Hq. rewrite (K n (in_elt n l r) q) by (apply in_or_app; now right). now apply A.
      + rewrite Forall_forall in *. intros x Hx. apply UT; [apply in_or_app; right; now right|auto].
  Qed.

  Lemma chunk_good w l acts ch w' : (forall n, In n l -> In n names) -> NoDup l -> good w l (mkChunk acts None) -> chunk_step w acts ch w' ->
    good w' l ch /\ (w' = w \/ exists n p c, In n l /\ In p (W n) /\ w' = put_file w p c).
  Proof.
    intros HL NL G S. inversion G as [l0 D E0|l0 n r a D HW E A U E0|]; subst; [inversion S|].
    inversion S; subst.
    - split; [|now left]. cbn [run_act within] in *. apply good_at; auto. apply HW.
    - destruct HW as [Hp HW]. cbn [run_act] in *.
      assert (OT : forall x, In x l0 \/ In x r -> x <> n /\ In x names).
      { intros x Hx. split; [|apply HL, in_or_app; destruct Hx; [now left|right; now right]].
        intros ->. apply NoDup_remove_2 in NL. apply NL, in_or_app. exact Hx. }
      assert (K : forall x, In x l0 \/ In x r -> agree (R x ++ W x) (put_file w p c) w).
      { intros x Hx q Hq. destruct (OT x Hx) as [N1 N2]. apply put_other. intros ->.
        exact (apart n x p (HL n (in_elt n l0 r)) N2 (not_eq_sym N1) Hp Hq). }
      split; [|right; exists n, p, c; split; [apply in_elt|auto]].
      apply good_at; auto; rewrite Forall_forall in *.
      + intros x Hx. destruct (D x Hx) as [E1 A1]. split; [exact E1|]. intros q Hq.
        rewrite (K x (or_introl Hx) q) by (apply in_or_app; now right). now apply A1.
      + intros x Hx q Hq. rewrite (K x (or_intror Hx) q Hq). exact (U x Hx q Hq).
    - split; [|now left]. cbn [run_act] in *. change (l0 ++ n :: r) with (l0 ++ [n] ++ r). rewrite app_assoc. apply good_start; [|exact U].
      apply Forall_app. split; [exact D|]. constructor; [|constructor]. split; [now rewrite <- E|].
      intros q Hq. rewrite <- (A q) by (apply in_or_app; now right). reflexivity.
    - split; [|now left]. cbn [run_act] in *. apply good_failed; auto.
      intros q Hq. rewrite <- (A q) by (apply in_or_app; now right). reflexivity.
  Qed.

  Definition rest_same (w : disk T) : Prop := forall p, (forall n, In n names -> ~ In p (W n)) -> w p = w0 p.
  Definition pool_good (chunks : list (list string)) (s : pool T) : Prop :=
    Forall2 (good (pl_disk s)) chunks (pl_chunks s) /\ rest_same (pl_disk s).

  Lemma pool_step_good chunks s t : concat chunks = names -> pool_good chunks s -> pool_step s t -> pool_good chunks t.
  Proof.
    intros EC [G RS] St. destruct St as [a l b w c w' St]. cbn [pl_chunks pl_disk] in *. unfold pool_good. cbn [pl_chunks pl_disk].
    apply Forall2_app_inv_r in G as (ca & cl & Ga & Gl & ->). inversion Gl as [|nl ? cb ? Gn Gb]; subst.
    assert (NC := ND). rewrite <- EC, concat_app in NC. cbn [concat] in NC.
    assert (HL : forall n, In n nl -> In n names).
    { intros n Hn. rewrite <- EC, concat_app. cbn [concat]. apply in_or_app. right. apply in_or_app. now left. }
    assert (NL : NoDup nl) by (exact (nodup_left _ _ (nodup_right _ _ NC))).
    destruct (chunk_good _ _ _ _ _ HL NL Gn St) as [G1 [->|(n & p & k & Hn & Hp & ->)]].
    - split; [|exact RS]. apply Forall2_app; [exact Ga|]. now constructor.
    - split.
      + assert (OT : forall m, In m (concat ca) \/ In m (concat cb) -> In m names /\ m <> n).
        { intros m Hm. split; [rewrite <- EC, concat_app; cbn [concat]; apply in_or_app; destruct Hm; [now left|right; apply in_or_app; now right]|].
          intros ->. destruct (in_split _ _ Hn) as (u & v & ->). rewrite <- app_assoc, app_assoc in NC. cbn [app] in NC.
          apply NoDup_remove_2 in NC. apply NC. rewrite !in_app_iff. tauto. }
        assert (GO : forall l ch, In l ca \/ In l cb -> good w l ch -> good (put_file w p k) l ch).
        { intros l1 ch Hl. apply (good_other w n p k l1 ch (HL n Hn) Hp). intros m Hm. apply OT.
          destruct Hl; [left|right]; apply in_concat; eauto. }
        apply Forall2_app; [|constructor; [exact G1|]].
        * clear - Ga GO. induction Ga as [|x y ca cs G _ IH]; constructor; [apply GO; [left; now left|exact G]|].
          apply IH. intros l1 ch [Hl|Hl]; apply GO; [left; now right|now right].
        * clear - Gb GO. induction Gb as [|x y cb cs G _ IH]; constructor; [apply GO; [right; now left|exact G]|].
          apply IH. intros l1 ch [Hl|Hl]; apply GO; [now left|right; now right].
      + intros q Hq. rewrite <- (RS q Hq). apply put_other. intros ->. exact (Hq n (HL n Hn) Hp).
  Qed.
  Lemma pool_steps_good chunks s t : concat chunks = names -> pool_steps s t -> pool_good chunks s -> pool_good chunks t.
  Proof. intros EC St. induction St as [|s t u S1 _ IH]; [auto|]. intros G. apply IH. exact (pool_step_good _ _ _ EC G S1). Qed.
  Lemma start_good chunks : pool_good chunks (mkPool (map (fun l => mkChunk (map task l) None) chunks) w0).
  Proof.
    split; [|intros p _; reflexivity]. cbn [pl_chunks pl_disk]. induction chunks as [|l chunks IH]; constructor; [|exact IH].
    apply (good_start w0 l []); [constructor|]. apply Forall_forall. intros n _ q _. reflexivity.
  Qed.

  Lemma good_ended w l ch : good w l ch -> ch_todo ch = [] ->
    (ch_failed ch = None /\ Forall (finished w) l) \/
    exists done n r e, l = done ++ n :: r /\ ch_failed ch = Some e /\ Forall (finished w) done /\ outcome n = Raise e /\
      agree (W n) w (result n) /\ Forall (untouched w) r.
  Proof.
    intros G E. destruct G as [l D|l n r a D HW E1 A U|l n r e D E1 A U].
    - left. auto.
    - discriminate.
    - right. exists l, n, r, e. repeat split; auto.
  Qed.

  Lemma before_part (a b c : list string) m n : before b m n -> before (a ++ b ++ c) m n.
  Proof.
    intros (u & v & x & ->). exists (a ++ u), v, (x ++ c). rewrite <- !app_assoc. cbn [app]. rewrite <- !app_assoc. reflexivity.
  Qed.
  Lemma concat_part (chunks : list (list string)) l : In l chunks -> exists a c, concat chunks = a ++ l ++ c.
  Proof.
    intros H. apply in_split in H as (x & y & ->). exists (concat x), (concat y). now rewrite concat_app.
  Qed.

  Lemma pool_result chunks s r : concat chunks = names -> pool_good chunks s -> pool_finished s -> pool_outcome s r ->
    (r = Ok tt -> forall n, In n names -> finished (pl_disk s) n) /\
    (forall e, r = Raise e -> exists n, In n names /\ outcome n = Raise e) /\
    (forall n, In n names -> finished (pl_disk s) n \/ ((exists e, outcome n = Raise e) /\ agree (W n) (pl_disk s) (result n)) \/
       (untouched (pl_disk s) n /\ exists m e, before names m n /\ outcome m = Raise e)) /\
    rest_same (pl_disk s).
  Proof.
    intros EC [G RS] FI OC.
    assert (CH : forall l, In l chunks -> exists ch, In ch (pl_chunks s) /\ good (pl_disk s) l ch /\ ch_todo ch = []).
    { intros l Hl. unfold pool_finished in FI. rewrite Forall_forall in FI. revert Hl. clear - G FI.
      induction G as [|x y ca cs G _ IH]; [contradiction|]. intros [<-|Hl]; [exists y; split; [now left|]; split; [exact G|apply FI; now left]|].
      destruct IH as (ch & Hc & K); [intros z Hz; apply FI; now right|exact Hl|]. exists ch. split; [now right|exact K]. }
    assert (CI : forall ch, In ch (pl_chunks s) -> exists l, In l chunks /\ good (pl_disk s) l ch /\ ch_todo ch = []).
    { intros ch Hl. unfold pool_finished in FI. rewrite Forall_forall in FI. revert Hl. clear - G FI.
      induction G as [|x y ca cs G _ IH]; [contradiction|]. intros [<-|Hl]; [exists x; split; [now left|]; split; [exact G|apply FI; now left]|].
      destruct IH as (l & Hc & K); [intros z Hz; apply FI; now right|exact Hl|]. exists l. split; [now right|exact K]. }
    assert (NM : forall n, In n names -> exists l, In l chunks /\ In n l).
    { intros n Hn. rewrite <- EC in Hn. apply in_concat in Hn as (l & Hl & Hn). exists l. auto. }
    split; [|split; [|split; [|exact RS]]].
    - intros -> n Hn. destruct (NM n Hn) as (l & Hl & Hn1). destruct (CH l Hl) as (ch & Hch & G1 & T1).
      destruct (good_ended _ _ _ G1 T1) as [[_ D]|(dn & m & rr & e & _ & F1 & _)].
      + rewrite Forall_forall in D. now apply D.
      + rewrite (OC ch Hch) in F1. discriminate.
    - intros e ->. destruct OC as (ch & Hch & Fe). destruct (CI ch Hch) as (l & Hl & G1 & T1).
      destruct (good_ended _ _ _ G1 T1) as [[F1 _]|(dn & m & rr & e' & -> & F1 & _ & E1 & _)]; [congruence|].
      exists m. split; [rewrite <- EC; apply in_concat; exists (dn ++ m :: rr); split; [exact Hl|apply in_elt]|]. congruence.
    - intros n Hn. destruct (NM n Hn) as (l & Hl & Hn1). destruct (CH l Hl) as (ch & Hch & G1 & T1).
      destruct (good_ended _ _ _ G1 T1) as [[_ D]|(dn & m & rr & e & -> & F1 & D & E1 & A1 & U)].
      + left. rewrite Forall_forall in D. now apply D.
      + rewrite Forall_forall in D, U. apply in_app_or in Hn1 as [Hn1|[<-|Hn1]]; [left; now apply D|right; left; split; [now exists e|exact A1]|].
        right. right. split; [now apply U|]. exists m, e. split; [|exact E1]. destruct (concat_part _ _ Hl) as (a & c & E2).
        rewrite <- EC, E2. apply before_part. apply in_split in Hn1 as (b & x & ->). exists dn, b, x. reflexivity.
  Qed.
End Pool.

(* ---- one process ---- *)
Section Single.
  Context {T : Type}.
  Lemma steps_trans (s t u : pool T) : pool_steps s t -> pool_steps t u -> pool_steps s u.
  Proof. intros A B. induction A as [|s t v S _ IH]; [exact B|]. exact (steps_more _ _ _ S (IH B)). Qed.
  Lemma single_run (a : act T) : forall l w, pool_steps (mkPool [mkChunk (a :: l) None] w)
    (mkPool [mkChunk (Done (fst (run_act a w)) :: l) None] (snd (run_act a w))).
  Proof.
    induction a as [r|p k IH|p c k IH]; intros l w; cbn [run_act]; [constructor| |].
    - eapply steps_more; [exact (pool_one [] _ [] _ _ _ (step_read w p k l))|]. apply IH.
    - eapply steps_more; [exact (pool_one [] _ [] _ _ _ (step_write w p c k l))|]. apply IH.
  Qed.
  Fixpoint run_acts (l : list (act T)) (w : disk T) : res unit * disk T :=
    match l with
    | [] => (Ok tt, w)
    | a :: l => match run_act a w with (Ok _, w) => run_acts l w | (Raise e, w) => (Raise e, w) end
    end.
  Lemma single_all l : forall w, exists s, pool_steps (mkPool [mkChunk l None] w) s /\ pool_finished s /\
    pool_outcome s (fst (run_acts l w)) /\ pl_disk s = snd (run_acts l w).
  Proof.
    induction l as [|a l IH]; intros w; cbn [run_acts].
    - exists (mkPool [mkChunk [] None] w). split; [constructor|]. split; [repeat constructor|]. split; [|reflexivity].
      intros c [<-|[]]. reflexivity.
    - pose proof (single_run a l w) as S. destruct (run_act a w) as [[[]|e] w1]; cbn [fst snd] in S.
      + destruct (IH w1) as (s & S1 & F & O & D). exists s. split; [|auto]. eapply steps_trans; [exact S|].
        eapply steps_more; [exact (pool_one [] _ [] _ _ _ (step_done w1 l))|]. exact S1.
      + exists (mkPool [mkChunk [] (Some e)] w1). split; [|split; [repeat constructor|split; [|reflexivity]]].
        * eapply steps_trans; [exact S|]. eapply steps_more; [exact (pool_one [] _ [] _ _ _ (step_fail w1 e l))|]. constructor.
        * exists (mkChunk [] (Some e)). split; [now left|reflexivity].
  Qed.
End Single.

(* ---- the number of steps ---- *)
Section Steps.
  Context {T : Type}.
  Fixpoint at_most (k : nat) (a : act T) : Prop :=
    match k, a with
    | O, _ => False
    | S k, Done _ => True
    | S k, ReadFile _ f => forall o, at_most k (f o)
    | S k, WriteFile _ _ a => at_most k a
    end.
  (* a bound for every program, and their sum *)
  Inductive chunk_bound : list (act T) -> nat -> Prop :=
    | bound_nil k : chunk_bound [] k
    | bound_cons a l j k : at_most j a -> chunk_bound l k -> chunk_bound (a :: l) (j + k).
  Inductive pool_bound : list (chunk T) -> nat -> Prop :=
    | pbound_nil : pool_bound [] 0
    | pbound_cons c l j k : chunk_bound (ch_todo c) j -> pool_bound l k -> pool_bound (c :: l) (j + k).
  Lemma chunk_bound_step w l c w' k : chunk_step w l c w' -> chunk_bound l k -> exists k', S k' = k /\ chunk_bound (ch_todo c) k'.
  Proof.
    intros S B. inversion B as [|a l1 j k1 A B1]; subst; [inversion S|]. destruct j as [|j]; [destruct A|]. exists (j + k1). split; [reflexivity|].
    inversion S; subst; cbn [ch_todo].
    - constructor; [apply A|exact B1].
    - constructor; [exact A|exact B1].
    - clear - B1. revert j. induction B1 as [k|a l j0 k A B IH]; intros j; [constructor|].
      replace (j + (j0 + k)) with (j0 + (j + k)) by lia. constructor; auto.
    - constructor.
  Qed.
  Lemma pool_bound_app a : forall b k, pool_bound (a ++ b) k <-> exists i j, k = i + j /\ pool_bound a i /\ pool_bound b j.
  Proof.
    induction a as [|c a IH]; intros b k; cbn [app].
    - split; [intros H; exists 0, k; repeat split; [constructor|exact H]|]. intros (i & j & -> & A & B). inversion A; subst. exact B.
    - split.
      + intros H. inversion H as [|? ? j k1 A B]; subst. apply IH in B as (i & j1 & -> & B1 & B2). exists (j + i), j1.
        split; [lia|]. split; [now constructor|exact B2].
      + intros (i & j & -> & A & B). inversion A as [|? ? j1 k1 A1 A2]; subst. rewrite <- Nat.add_assoc. constructor; [exact A1|].
        apply IH. exists k1, j. auto.
  Qed.
  Lemma pool_bound_step s t k : pool_step s t -> pool_bound (pl_chunks s) k -> exists k', S k' = k /\ pool_bound (pl_chunks t) k'.
  Proof.
    intros S B. destruct S as [a l b w c w' S]. cbn [pl_chunks] in *. apply pool_bound_app in B as (i & j & -> & A & B).
    inversion B as [|? ? j1 k1 A1 A2]; subst. cbn [ch_todo] in A1. destruct (chunk_bound_step _ _ _ _ _ S A1) as (k' & <- & A3).
    exists (i + (k' + k1)). split; [lia|]. apply pool_bound_app. exists i, (k' + k1). split; [reflexivity|]. split; [exact A|]. now constructor.
  Qed.
  Lemma takes_bound j s t : takes j s t -> forall k, pool_bound (pl_chunks s) k -> j <= k.
  Proof.
    intros H. induction H as [|j s t u S _ IH]; intros k B; [lia|]. destruct (pool_bound_step _ _ _ S B) as (k' & <- & B1).
    apply IH in B1. lia.
  Qed.
  Lemma takes_steps (s t : pool T) : pool_steps s t <-> exists k, takes k s t.
  Proof.
    split; intros H.
    - induction H as [s|s t u Q _ (k & IH)]; [exists 0; apply takes_none|]. exists (S k). exact (takes_more _ _ _ _ Q IH).
    - destruct H as (k & H). induction H as [s|k s t u Q _ IH]; [apply steps_none|]. exact (steps_more _ _ _ Q IH).
  Qed.

  (* the failed chunks have nothing left to do *)
  Definition sane (s : pool T) : Prop := Forall (fun c => ch_failed c = None \/ ch_todo c = []) (pl_chunks s).
  Lemma sane_step s t : pool_step s t -> sane s -> sane t.
  Proof.
    intros S H. destruct S as [a l b w c w' S]. unfold sane in *. cbn [pl_chunks] in *. apply Forall_app in H as [A B].
    inversion B as [|? ? _ B1]; subst. apply Forall_app. split; [exact A|]. constructor; [|exact B1]. inversion S; cbn; auto.
  Qed.
  Lemma sane_steps s t : pool_steps s t -> sane s -> sane t.
  Proof. intros H. induction H as [|s t u S _ IH]; [auto|]. intros A. apply IH. exact (sane_step _ _ S A). Qed.
  Lemma act_steps (w : disk T) a l : exists c w', chunk_step w (a :: l) c w'.
  Proof. destruct a as [[[]|e]|p k|p c k]; eauto using step_done, step_fail, step_read, step_write. Qed.
  Lemma unfinished s : sane s -> ~ pool_finished s -> exists t, pool_step s t.
  Proof.
    destruct s as [cs w]. unfold sane, pool_finished. cbn [pl_chunks]. intros S N.
    assert (E : exists a c b, cs = a ++ c :: b /\ ch_todo c <> []).
    { clear S. induction cs as [|c cs IH]; [exfalso; apply N; constructor|]. destruct (ch_todo c) as [|x y] eqn:E.
      - destruct IH as (a & d & b & -> & D); [intros F; apply N; constructor; [exact E|exact F]|]. exists (c :: a), d, b. auto.
      - exists [], c, cs. split; [reflexivity|congruence]. }
    destruct E as (a & c & b & -> & D). rewrite Forall_app in S. destruct S as [_ S]. inversion S as [|? ? [F|F] _]; subst; [|contradiction].
    destruct c as [todo failed]. cbn [ch_todo ch_failed] in *. subst failed. destruct todo as [|x y]; [contradiction|].
    destruct (act_steps w x y) as (c & w' & St). eexists. exact (pool_one a _ b w c w' St).
  Qed.
End Steps.
