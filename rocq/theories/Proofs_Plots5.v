(* Figures and files *)
From Coq Require Import String ZArith List Bool Lia Ascii.
From Verif Require Import Num Np Finders Config Calib Pyplot Plots Spec_Plots Proofs_Plots1.
Import ListNotations.
Local Open Scope nat_scope.

(* ---- strings ---- *)
Local Open Scope string_scope.
Lemma append_inv_l a b c : a ++ b = a ++ c -> b = c.
Proof. induction a as [|x a IH]; cbn; [auto|]. intros E. injection E. auto. Qed.
Lemma append_length a b : String.length (a ++ b) = String.length a + String.length b.
Proof. induction a as [|x a IH]; cbn; [reflexivity|]. now rewrite IH. Qed.
Lemma append_inv_r s : forall b c, b ++ s = c ++ s -> b = c.
Proof.
  induction b as [|x b IH]; intros [|y c] E.
  - reflexivity.
  - exfalso. apply (f_equal String.length) in E. cbn in E. rewrite append_length in E. lia.
  - exfalso. apply (f_equal String.length) in E. cbn in E. rewrite append_length in E. lia.
  - cbn in E. injection E as -> E. f_equal. auto.
Qed.
Lemma append_assoc (a b c : string) : (a ++ b) ++ c = a ++ (b ++ c).
Proof. induction a as [|x a IH]; cbn; [reflexivity|]. now rewrite IH. Qed.
Lemma plot_file_inj {T} (p : @plot_paths T) name a b : plot_file p name a = plot_file p name b -> a = b.
Proof. unfold plot_file. intros E. apply append_inv_l in E. now apply append_inv_r in E. Qed.
Local Open Scope nat_scope.
Local Close Scope string_scope.

Section Files.
  Context {D : Type}.
  Variable closes : bool.
  Implicit Types s t : session D.

  Lemma execs_app cs ds s : execs closes (cs ++ ds) s = execs closes ds (execs closes cs s).
  Proof. unfold execs. apply fold_left_app. Qed.

  Lemma find_filter (f g : string) (l : list (string * list (nat * D))) : f <> g ->
    find (fun e => String.eqb (fst e) f) (filter (fun e => negb (String.eqb (fst e) g)) l) = find (fun e => String.eqb (fst e) f) l.
  Proof.
    intros Hne. induction l as [|[n c] l IH]; [reflexivity|]. cbn [filter fst find]. destruct (String.eqb_spec n g) as [->|Hg]; cbn [negb].
    - rewrite IH. destruct (String.eqb_spec g f); [congruence|reflexivity].
    - cbn [find fst]. now rewrite IH.
  Qed.

  (* the open figures do not depend on the files, and files are only added or replaced *)
  Lemma exec_files c s t f : open_figures s = open_figures t ->
    open_figures (exec closes s c) = open_figures (exec closes t c) /\
    ((file_content (exec closes s c) f = file_content s f /\ file_content (exec closes t c) f = file_content t f)
     \/ file_content (exec closes s c) f = file_content (exec closes t c) f /\ file_content (exec closes t c) f <> None).
  Proof.
    intros E. destruct c; cbn [exec open_figures]; rewrite ?E; try (split; [reflexivity|left; split; reflexivity]).
    split; [reflexivity|]. unfold file_content. cbn [files find fst].
    destruct (String.eqb_spec file f) as [->|Hne].
    - right. cbn. split; [reflexivity|discriminate].
    - left. rewrite !find_filter by congruence. split; reflexivity.
  Qed.

  Lemma execs_files cs : forall s t f, open_figures s = open_figures t ->
    open_figures (execs closes cs s) = open_figures (execs closes cs t) /\
    ((file_content (execs closes cs s) f = file_content s f /\ file_content (execs closes cs t) f = file_content t f)
     \/ file_content (execs closes cs s) f = file_content (execs closes cs t) f /\ file_content (execs closes cs t) f <> None).
  Proof.
    induction cs as [|c cs IH]; intros s t f E; [cbn; split; [assumption|left; split; reflexivity]|]. cbn [execs fold_left].
    destruct (exec_files c s t f E) as [E' Hf]. fold (execs closes cs (exec closes s c)). fold (execs closes cs (exec closes t c)).
    destruct (IH (exec closes s c) (exec closes t c) f E') as [E2 Hf2]. split; [assumption|].
    destruct Hf2 as [[A B]|[A B]]; [|right; auto]. rewrite A, B. assumption.
  Qed.

  Lemma execs_fresh cs s f : open_figures s = [] ->
    file_content (execs closes cs s) f =
      match file_content (execs closes cs empty_session) f with Some c => Some c | None => file_content s f end
    /\ open_figures (execs closes cs s) = open_figures (execs closes cs empty_session).
  Proof.
    intros E. destruct (execs_files cs s empty_session f E) as [Ho [[A B]|[A B]]].
    - split; [|assumption]. rewrite A, B. reflexivity.
    - split; [|assumption]. rewrite A. destruct (file_content (execs closes cs empty_session) f); [reflexivity|contradiction].
  Qed.

  (* a file is written exactly when its name is among those saved *)
  Lemma saved_iff cs : forall s f, file_content (execs closes cs s) f <> None <->
    file_content s f <> None \/ In f (saved_names (pdo cs)).
  Proof.
    induction cs as [|c cs IH]; intros s f; [cbn; split; [auto|intros [|[]]; assumption]|].
    cbn [execs fold_left]. fold (execs closes cs (exec closes s c)). rewrite IH. unfold saved_names. cbn [pdo fst flat_map]. rewrite in_app_iff.
    assert (Hc : file_content (exec closes s c) f <> None <-> file_content s f <> None \/ In f (match c with Savefig f => [f] | _ => [] end)).
    { destruct c; cbn [exec In]; try (split; [auto|intros [|[]]; assumption]). unfold file_content. cbn [files find fst].
      destruct (String.eqb_spec file f) as [->|Hne].
      - cbn. split; [auto|discriminate].
      - rewrite find_filter by congruence. split; [auto|]. intros [A|[A|[]]]; [assumption|contradiction]. }
    rewrite Hc. tauto.
  Qed.

  (* a program that leaves no figure open *)
  Definition tidy (p : prog D) : Prop := open_figures (execs closes (fst p) empty_session) = [].

  Lemma alone_first p q f : completes p -> tidy p -> ~ In f (saved_names q) -> alone closes (pseq p q) f = alone closes p f.
  Proof.
    intros Hp Ht Hn. unfold alone. rewrite fst_pseq by assumption. rewrite execs_app.
    destruct (execs_fresh (fst q) (execs closes (fst p) empty_session) f Ht) as [-> _].
    destruct (file_content (execs closes (fst q) empty_session) f) eqn:E; [|reflexivity]. exfalso.
    assert (H : file_content (execs closes (fst q) empty_session) f <> None) by congruence.
    apply saved_iff in H as [H|H]; [now apply H|]. apply Hn. exact H.
  Qed.
  Lemma alone_second p q f : completes p -> tidy p -> In f (saved_names q) -> alone closes (pseq p q) f = alone closes q f.
  Proof.
    intros Hp Ht Hi. unfold alone. rewrite fst_pseq by assumption. rewrite execs_app.
    destruct (execs_fresh (fst q) (execs closes (fst p) empty_session) f Ht) as [-> _].
    destruct (file_content (execs closes (fst q) empty_session) f) eqn:E; [reflexivity|]. exfalso.
    assert (H : file_content (execs closes (fst q) empty_session) f <> None) by (apply saved_iff; right; exact Hi). contradiction.
  Qed.
  Lemma tidy_pseq p q : completes p -> tidy p -> tidy q -> tidy (pseq p q).
  Proof.
    intros Hp Ht Hq. unfold tidy. rewrite fst_pseq by assumption. rewrite execs_app.
    destruct (execs_fresh (fst q) (execs closes (fst p) empty_session) EmptyString Ht) as [_ ->]. exact Hq.
  Qed.
  Lemma tidy_nil : tidy pnil.
  Proof. reflexivity. Qed.
  Lemma tidy_pfor {A} (l : list A) (g : A -> prog D) : (forall a, In a l -> completes (g a) /\ tidy (g a)) -> tidy (pfor l g).
  Proof.
    induction l as [|a l IH]; intros Hl; [reflexivity|]. cbn [pfor fold_right]. apply tidy_pseq; [apply Hl; now left|apply Hl; now left|].
    apply IH. intros b Hb. apply Hl. now right.
  Qed.
End Files.

(* plt.show() at the end *)
Lemma tidy_show {D} (cs : list (command D)) : tidy true (pdo (cs ++ [Show])).
Proof. unfold tidy. cbn [fst pdo]. rewrite execs_app. reflexivity. Qed.
Lemma tidy_end {D} (p : prog D) cs : completes p -> tidy true (pseq p (pdo (cs ++ [Show]))).
Proof. intros Hp. unfold tidy. rewrite fst_pseq by assumption. cbn [fst pdo]. rewrite app_assoc, execs_app. reflexivity. Qed.
