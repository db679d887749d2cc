From Coq Require Import String Ascii.
From Coq Require Import ZArith List Bool Reals Lra Lia Permutation.
From Verif Require Import Num Np NumFacts NpFacts Helper MapProfile Mapping Spec_Mapping Spec_Settings Proofs_Mapping Proofs_Mapping2 Proofs_Mapping3 Proofs_Mapping4.
Import ListNotations.
Local Open Scope nat_scope.

Lemma setting_at cfg name v : In (name, v) (run_settings cfg) -> exists i, i < 12 /\ nth i setting_names EmptyString = name /\ nth i (map_values cfg) NaN = v.
Proof.
  unfold run_settings. cbn [In].
  intros [E|[E|[E|[E|[E|[E|[E|[E|[E|[E|[E|[E|[]]]]]]]]]]]]]; injection E as <- <-;
    [exists 1|exists 3|exists 0|exists 2|exists 4|exists 5|exists 6|exists 7|exists 8|exists 9|exists 10|exists 11]; (split; [lia|split; reflexivity]).
Qed.
Lemma setting_lookup (F : XR -> list XR) values i : length values = 12 -> i < 12 ->
  lookup (nth i setting_names EmptyString) (combine setting_names (map F values)) = Some (snd (nth i (combine setting_names (map F values)) (EmptyString, []))).
Proof.
  intros L Hi. do 13 (destruct values as [|? values]; try discriminate L). do 12 (destruct i as [|i]; [reflexivity|]). lia.
Qed.
Section Settings.
  Variable qs : list XR -> list nat.
  Hypothesis HS : sorting qs.
  Theorem settings_recorded calc cwd paths cfg src float_dir float_name rs st st' d : src_no src = map Fin rs -> NoDup rs ->
    st (load_path cwd paths float_dir float_name) = None ->
    update_salinity_mapping qs calc cwd paths cfg src float_dir float_name st = (Ok tt, st') ->
    st' (save_path cwd paths float_name) = Some d ->
    forall name v, In (name, v) (run_settings cfg) -> exists col, lookup name (settings d) = Some col /\ length col = length rs /\
    forall j p, j < length rs -> p < length rs -> nth j (la_profile_no d) NaN = Fin (nth p rs 0%R) ->
      (mapped_profile (calc src) (src_levels src) p -> nth j col NaN = v) /\ (~ mapped_profile (calc src) (src_levels src) p -> nth j col NaN = NaN).
  Proof.
    intros HN ND E0 E ED name v Hv. unfold update_salinity_mapping, update in E. rewrite E0, HN in E.
    destruct (run _ _ _ _ None _) as [d0|e] eqn:ER; [|discriminate]. injection E as <-. rewrite path_eqb_refl in ED. injection ED as ->.
    destruct (setting_at cfg name v Hv) as (i & Hi & EN & EV).
    pose proof (settings_labelled qs HS (map_values cfg) eq_refl (src_levels src) (calc src) rs ND d ER i Hi) as HL.
    apply (fresh_iff (map_values cfg) (src_levels src) (calc src) (map Fin rs) eq_refl qs d HS) in ER as (HC & sel & _ & _ & SF).
    destruct SF as (_ & _ & _ & _ & _ & _ & S7 & _). pose proof (setting_lookup (fun v => rearranged nnan (qs (map Fin rs)) (setting_column (src_levels src) (calc src) (map Fin rs) v)) (map_values cfg) i eq_refl Hi) as LK.
    rewrite <- S7, EN in LK. eexists. split; [exact LK|]. split.
    { rewrite S7. do 12 (destruct i as [|i]; [cbn [setting_names map_values map combine nth snd]; unfold rearranged; rewrite map_length, (Permutation_length (proj1 (HS _))), seq_length; apply map_length|]). lia. }
    intros j p Hj Hp EJ. specialize (HL j p Hj Hp EJ). cbv beta in HL. rewrite HL, EV. unfold has_levels. destruct (existsb _ _) eqn:EX.
    - split; [reflexivity|]. intros NS. exfalso. apply NS. apply existsb_exists in EX as (n & Hn & HO). apply in_seq in Hn. unfold outcome in HO.
      destruct (calc src p) as [lev|] eqn:EC; [|discriminate]. destruct (lev n) as [[o|]|] eqn:EL; try discriminate. exists lev, n, o. split; [exact EC|]. split; [lia|exact EL].
    - split; [|reflexivity]. intros (lev & n & o & EC & Hn & EL). exfalso. apply Bool.not_true_iff_false in EX. apply EX. apply existsb_exists. exists n. split; [apply in_seq; lia|].
      unfold outcome. now rewrite EC, EL.
  Qed.
End Settings.
