(* Proofs for pyowc/utilities.py: change_dates *)
From Coq Require Import ZArith List Bool Reals Lra Lia Ascii Wf_nat.
From Verif Require Import Num Np NumFacts NpFacts Utilities Spec_Utilities Proofs_Utilities2.
Import ListNotations.
Local Open Scope Z_scope.

Ltac dig10 d Hd :=
  assert (Hc : d = 0 \/ d = 1 \/ d = 2 \/ d = 3 \/ d = 4 \/ d = 5 \/ d = 6 \/ d = 7 \/ d = 8 \/ d = 9)
    by (unfold is_dig in Hd; lia);
  repeat (destruct Hc as [->|Hc]); try subst d.

Lemma is_digit_dig d : is_dig d -> is_digit (dig d) = true.
Proof. intros Hd. dig10 d Hd; reflexivity. Qed.
Lemma digit_val_dig d : is_dig d -> digit_val (dig d) = d.
Proof. intros Hd. dig10 d Hd; reflexivity. Qed.
Lemma is_space_dig d : is_dig d -> is_space (dig d) = false.
Proof. intros Hd. dig10 d Hd; reflexivity. Qed.
Lemma sign_dig d : is_dig d -> Nat.eqb (nat_of_ascii (dig d)) 45 = false /\ Nat.eqb (nat_of_ascii (dig d)) 43 = false.
Proof. intros Hd. dig10 d Hd; split; reflexivity. Qed.

Lemma lstrip_digs ds : Forall is_dig ds -> lstrip (map dig ds) = map dig ds.
Proof. destruct 1; simpl; auto. now rewrite is_space_dig. Qed.

Lemma strip_digs ds : Forall is_dig ds -> strip (map dig ds) = map dig ds.
Proof.
  intros Hd. unfold strip. rewrite lstrip_digs by auto. rewrite <- map_rev.
  rewrite lstrip_digs by (now apply Forall_rev). rewrite map_rev. apply rev_involutive.
Qed.

Lemma parse_digs ds acc : Forall is_dig ds ->
  parse_digits acc (map dig ds) = Some (fold_left (fun a d => 10 * a + d) ds acc).
Proof.
  intros Hd. revert acc. induction Hd as [|d ds Hd Hds IH]; intros acc; [reflexivity|].
  cbn [map parse_digits]. rewrite is_digit_dig, digit_val_dig by auto. apply IH.
Qed.

Lemma py_int_digs ds : Forall is_dig ds -> ds <> [] -> py_int (map dig ds) = Some (dval ds).
Proof.
  intros Hd Hn. unfold py_int. rewrite strip_digs by auto.
  destruct Hd as [|d ds Hd Hds]; [contradiction|]. cbn [map].
  destruct (sign_dig d Hd) as [-> ->]. rewrite is_digit_dig by auto.
  rewrite parse_digs by auto. rewrite digit_val_dig by auto. reflexivity.
Qed.

Lemma slice_map {A B} (f : A -> B) a b l : slice a b (map f l) = map f (slice a b l).
Proof. unfold slice. now rewrite skipn_map, firstn_map. Qed.

Lemma Forall_firstn {A} (P : A -> Prop) n l : Forall P l -> Forall P (firstn n l).
Proof. intros Hl. revert n. induction Hl; destruct n; simpl; constructor; auto. Qed.
Lemma Forall_skipn {A} (P : A -> Prop) n l : Forall P l -> Forall P (skipn n l).
Proof. intros Hl. revert n. induction Hl; destruct n; simpl; auto. Qed.

Lemma slice_digs ds a b : Forall is_dig ds -> Forall is_dig (slice a b ds).
Proof. intros. unfold slice. now apply Forall_firstn, Forall_skipn. Qed.

Lemma slice_nonempty {A} a b (l : list A) : (a < b)%nat -> (a < length l)%nat -> slice a b l <> [].
Proof.
  intros Hab Hl E. apply (f_equal (@length A)) in E. unfold slice in E.
  rewrite firstn_length, skipn_length in E. simpl in E. lia.
Qed.

Lemma change_date_digs ds : Forall is_dig ds -> (8 <= length ds)%nat ->
  change_date (map dig ds) = Fin (decimal_year (fields ds)).
Proof.
  intros Hd Hl. unfold change_date. rewrite !slice_map, map_length.
  rewrite !py_int_digs by (try (now apply slice_digs); apply slice_nonempty; lia).
  assert (Hh : (if (9 <? length ds)%nat then py_int (map dig (slice 8 10 ds)) else Some 0)
               = Some (if (10 <=? length ds)%nat then dval (firstn 2 (skipn 8 ds)) else 0)).
  { destruct (Nat.ltb_spec 9 (length ds)), (Nat.leb_spec 10 (length ds)); try lia; auto.
    apply (py_int_digs (slice 8 10 ds)); [now apply slice_digs|apply slice_nonempty; lia]. }
  assert (Hm : (if (11 <? length ds)%nat then py_int (map dig (slice 10 12 ds)) else Some 0)
               = Some (if (12 <=? length ds)%nat then dval (firstn 2 (skipn 10 ds)) else 0)).
  { destruct (Nat.ltb_spec 11 (length ds)), (Nat.leb_spec 12 (length ds)); try lia; auto.
    apply (py_int_digs (slice 10 12 ds)); [now apply slice_digs|apply slice_nonempty; lia]. }
  rewrite Hh, Hm. clear Hh Hm. unfold fields, decimal_year.
  change (slice 0 4 ds) with (firstn 4 ds). change (slice 4 6 ds) with (firstn 2 (skipn 4 ds)).
  change (slice 6 8 ds) with (firstn 2 (skipn 6 ds)).
  set (y := dval (firstn 4 ds)). set (mo := dval (firstn 2 (skipn 4 ds))).
  set (d := dval (firstn 2 (skipn 6 ds))).
  set (h := if (10 <=? length ds)%nat then _ else _).
  set (mi := if (12 <=? length ds)%nat then _ else _).
  destruct (Z.ltb_spec mo 13), (Z.leb_spec mo 12); try lia;
    destruct (Z.ltb_spec 0 mo), (Z.leb_spec 1 mo); try lia;
    destruct (Z.ltb_spec d 32), (Z.leb_spec d 31); try lia;
    destruct (Z.ltb_spec 0 d), (Z.leb_spec 1 d); try lia; cbn [andb]; try reflexivity.
  rewrite cal2dec_eval by (unfold month_ok; lia).
  destruct (Z.ltb_spec (mo - 1) 0); [lia|].
  destruct (Z.leb_spec (minute_of_year (mo - 1) d h mi) (366 * 1440)); [|reflexivity].
  cbn [nofZ XR_Num]. rewrite ndiv_fin by lra. reflexivity.
Qed.

(* a suffix after at least twelve digits is irrelevant *)
Lemma slice_app_l {A} a b (l t : list A) : (b <= length l)%nat -> (a <= b)%nat -> slice a b (l ++ t) = slice a b l.
Proof.
  intros Hb Hab. unfold slice. rewrite skipn_app, firstn_app, skipn_length.
  replace (b - a - (length l - a))%nat with 0%nat by lia. now rewrite firstn_O, app_nil_r.
Qed.

Lemma change_date_suffix {T} `{Num T} s t : (12 <= length s)%nat -> change_date (s ++ t) = change_date s :> T.
Proof.
  intros Hl. unfold change_date. rewrite !slice_app_l by lia. rewrite app_length.
  destruct (Nat.ltb_spec 9 (length s + length t)), (Nat.ltb_spec 9 (length s)); try lia.
  destruct (Nat.ltb_spec 11 (length s + length t)), (Nat.ltb_spec 11 (length s)); try lia.
  reflexivity.
Qed.


Lemma py_int_dot_zero : py_int dot_zero = None.
Proof. reflexivity. Qed.

Lemma slice_mid {A} a b (l t : list A) : length l = a -> b = (a + length t)%nat -> slice a b (l ++ t) = t.
Proof.
  intros Hl ->. unfold slice. rewrite skipn_app. rewrite skipn_all2 by lia.
  replace (a - length l)%nat with 0%nat by lia. simpl. apply firstn_all2. lia.
Qed.

Lemma change_date_dot_zero_8 s : length s = 8%nat -> change_date (s ++ dot_zero) = Fin 0.
Proof.
  intros Hl. unfold change_date.
  assert (E : (9 <? length (s ++ dot_zero))%nat = true) by (rewrite app_length, Hl; reflexivity).
  rewrite E. rewrite (slice_mid 8 10 s dot_zero) by auto. rewrite py_int_dot_zero.
  destruct (py_int (slice 0 4 (s ++ dot_zero))), (py_int (slice 4 6 (s ++ dot_zero))), (py_int (slice 6 8 (s ++ dot_zero))); reflexivity.
Qed.

Lemma change_date_dot_zero_10 s : length s = 10%nat -> change_date (s ++ dot_zero) = Fin 0.
Proof.
  intros Hl. unfold change_date.
  assert (E : (11 <? length (s ++ dot_zero))%nat = true) by (rewrite app_length, Hl; reflexivity).
  rewrite E. rewrite (slice_mid 10 12 s dot_zero) by auto. rewrite py_int_dot_zero.
  destruct (py_int (slice 0 4 (s ++ dot_zero))), (py_int (slice 4 6 (s ++ dot_zero))), (py_int (slice 6 8 (s ++ dot_zero))); try reflexivity.
  destruct (if (9 <? length (s ++ dot_zero))%nat then py_int (slice 8 10 (s ++ dot_zero)) else Some 0); reflexivity.
Qed.

(* characters accepted by int() *)
Lemma is_digit_int_char c : is_digit c = true -> int_char c.
Proof.
  unfold is_digit. intros E. apply andb_prop in E as [A B].
  apply Nat.leb_le in A, B. left. exists (Z.of_nat (nat_of_ascii c) - 48).
  split; [unfold is_dig; lia|]. unfold dig.
  replace (Z.to_nat (48 + (Z.of_nat (nat_of_ascii c) - 48))) with (nat_of_ascii c) by lia.
  symmetry. apply ascii_nat_embedding.
Qed.

Lemma is_space_int_char c : is_space c = true -> int_char c.
Proof.
  unfold is_space. intros E. right.
  apply orb_prop in E as [E|E]; apply andb_prop in E as [A B]; apply Nat.leb_le in A, B;
    set (n := nat_of_ascii c) in *; clearbody n.
  - do 14 (destruct n as [|n]; [simpl; tauto || lia|]). lia.
  - do 33 (destruct n as [|n]; [simpl; tauto || lia|]). lia.
Qed.

Lemma lstrip_chars s : Forall int_char (lstrip s) -> Forall int_char s.
Proof.
  induction s as [|c s IH]; simpl; auto. destruct (is_space c) eqn:E; auto.
  intros Hs. constructor; auto. now apply is_space_int_char.
Qed.

Lemma strip_chars s : Forall int_char (strip s) -> Forall int_char s.
Proof.
  unfold strip. intros Hs. apply lstrip_chars. apply Forall_rev in Hs. rewrite rev_involutive in Hs.
  apply lstrip_chars in Hs. apply Forall_rev in Hs. now rewrite rev_involutive in Hs.
Qed.

Lemma parse_digits_chars s : forall acc v, parse_digits acc s = Some v -> Forall int_char s.
Proof.
  remember (length s) as n eqn:En. revert s En.
  induction n as [n IH] using lt_wf_ind. intros s -> acc v. destruct s as [|c s]; simpl; [constructor|].
  destruct (is_digit c) eqn:E.
  - intros P. constructor; [now apply is_digit_int_char|]. eapply IH; [|reflexivity|eauto]; simpl; lia.
  - destruct (Nat.eqb_spec (nat_of_ascii c) 95) as [E2|]; [|discriminate].
    destruct s as [|d s]; [discriminate|]. destruct (is_digit d) eqn:E3; [|discriminate].
    intros P. constructor; [right; rewrite E2; simpl; tauto|].
    constructor; [now apply is_digit_int_char|]. eapply IH; [|reflexivity|eauto]; simpl; lia.
Qed.

Lemma py_int_chars s v : py_int s = Some v -> Forall int_char s.
Proof.
  intros P. apply strip_chars. unfold py_int in P. destruct (strip s) as [|c r]; [constructor|].
  destruct (Nat.eqb_spec (nat_of_ascii c) 45) as [E|E].
  - destruct r as [|c' r]; [discriminate|]. destruct (is_digit c') eqn:E1; [|discriminate].
    destruct (parse_digits (digit_val c') r) eqn:E2; [|discriminate].
    constructor; [right; rewrite E; simpl; tauto|]. constructor; [now apply is_digit_int_char|].
    eapply parse_digits_chars; eauto.
  - destruct (Nat.eqb_spec (nat_of_ascii c) 43) as [E'|E'].
    + destruct r as [|c' r]; [discriminate|]. destruct (is_digit c') eqn:E1; [|discriminate].
      destruct (parse_digits (digit_val c') r) eqn:E2; [|discriminate].
      constructor; [right; rewrite E'; simpl; tauto|]. constructor; [now apply is_digit_int_char|].
      eapply parse_digits_chars; eauto.
    + destruct (is_digit c) eqn:E1; [|discriminate].
      destruct (parse_digits (digit_val c) r) eqn:E2; [|discriminate].
      constructor; [now apply is_digit_int_char|]. eapply parse_digits_chars; eauto.
Qed.

Lemma slices_cover {A} (l : list A) : firstn 8 l = slice 0 4 l ++ slice 4 6 l ++ slice 6 8 l.
Proof.
  do 9 (destruct l; [reflexivity|]). reflexivity.
Qed.

Lemma change_date_bad_char s c : In c (firstn 8 s) -> ~ int_char c -> change_date s = Fin 0.
Proof.
  intros Hi Hc. rewrite slices_cover in Hi. unfold change_date.
  destruct (py_int (slice 0 4 s)) eqn:E0; [|reflexivity].
  destruct (py_int (slice 4 6 s)) eqn:E1; [|reflexivity].
  destruct (py_int (slice 6 8 s)) eqn:E2; [|reflexivity].
  apply py_int_chars in E0, E1, E2. rewrite Forall_forall in *.
  exfalso. apply Hc. rewrite !in_app_iff in Hi. destruct Hi as [Hi|[Hi|Hi]]; auto.
Qed.

Lemma change_date_short s : (length s < 7)%nat -> change_date s = Fin 0.
Proof.
  intros Hl. unfold change_date.
  replace (slice 6 8 s) with (@nil ascii).
  - change (py_int []) with (@None Z). destruct (py_int (slice 0 4 s)), (py_int (slice 4 6 s)); reflexivity.
  - unfold slice. rewrite skipn_all2 by lia. reflexivity.
Qed.

(* ---- str of an integer ---- *)
Lemma dval_app a b : dval (a ++ b) = dval a * 10 ^ Z.of_nat (length b) + dval b.
Proof.
  unfold dval. rewrite fold_left_app. generalize (fold_left (fun a0 d => 10 * a0 + d) a 0). intros v.
  assert (G : forall w, fold_left (fun a0 d => 10 * a0 + d) b w
                = w * 10 ^ Z.of_nat (length b) + fold_left (fun a0 d => 10 * a0 + d) b 0).
  { induction b as [|d b IH]; intros w.
    - simpl. lia.
    - cbn [fold_left length]. rewrite IH, (IH (10*0+d)). rewrite Nat2Z.inj_succ, Z.pow_succ_r by lia. lia. }
  apply G.
Qed.

Lemma dval_snoc a d : dval (a ++ [d]) = 10 * dval a + d.
Proof. rewrite dval_app. change (10 ^ Z.of_nat (length [d])) with 10. change (dval [d]) with d. lia. Qed.

Lemma dval_range ds : Forall is_dig ds -> 0 <= dval ds < 10 ^ Z.of_nat (length ds).
Proof.
  induction ds as [|d ds IH] using rev_ind; intros Hd.
  - simpl. unfold dval. simpl. lia.
  - apply Forall_app in Hd as [Hd Hx]. inversion Hx; subst. unfold is_dig in *.
    rewrite dval_snoc, app_length, Nat.add_1_r, Nat2Z.inj_succ, Z.pow_succ_r by lia.
    specialize (IH Hd). lia.
Qed.

Lemma dval_head d ds : Forall is_dig ds -> 1 <= d -> 10 ^ Z.of_nat (length ds) <= dval (d :: ds).
Proof.
  intros Hd H1. change (d :: ds) with ([d] ++ ds). rewrite dval_app.
  pose proof (dval_range ds Hd). change (dval [d]) with (10 * 0 + d). nia.
Qed.

Lemma str_fuel_spec ds d f : Forall is_dig (d :: ds) -> 1 <= d -> (length ds <= f)%nat ->
  str_fuel f (dval (d :: ds)) = map dig (d :: ds).
Proof.
  revert f. induction ds as [|x ds IH] using rev_ind; intros f Hd H1 Hf.
  - inversion Hd; subst. unfold is_dig in *. change (dval [d]) with d.
    destruct f; cbn [str_fuel].
    + rewrite Z.mod_small by lia. reflexivity.
    + destruct (Z.ltb_spec d 10); [|lia]. rewrite Z.mod_small by lia. reflexivity.
  - rewrite app_length in Hf. simpl in Hf. destruct f as [|f]; [lia|].
    change (d :: ds ++ [x]) with ((d :: ds) ++ [x]) in *.
    apply Forall_app in Hd as [Hd Hx]. inversion Hx; subst. unfold is_dig in H2.
    rewrite dval_snoc. cbn [str_fuel].
    assert (1 <= dval (d :: ds)).
    { pose proof (dval_head d ds (Forall_inv_tail Hd) H1).
      assert (0 < 10 ^ Z.of_nat (length ds)) by (apply Z.pow_pos_nonneg; lia). lia. }
    destruct (Z.ltb_spec (10 * dval (d :: ds) + x) 10); [lia|].
    replace ((10 * dval (d :: ds) + x) / 10) with (dval (d :: ds)).
    2:{ rewrite Z.mul_comm, Z.div_add_l, Z.div_small by lia. lia. }
    replace ((10 * dval (d :: ds) + x) mod 10) with x.
    2:{ rewrite Z.add_comm, Z.mul_comm, Z_mod_plus_full, Z.mod_small by lia. lia. }
    rewrite IH by (auto; lia). rewrite map_app. reflexivity.
Qed.

Lemma str_Z_spec ds d : Forall is_dig (d :: ds) -> 1 <= d -> str_Z (dval (d :: ds)) = map dig (d :: ds).
Proof.
  intros Hd H1. inversion Hd; subst.
  pose proof (dval_head d ds H3 H1) as Hp.
  assert (0 < 10 ^ Z.of_nat (length ds)) by (apply Z.pow_pos_nonneg; lia).
  unfold str_Z. destruct (Z.ltb_spec (dval (d :: ds)) 0); [lia|].
  apply str_fuel_spec; auto.
  assert (2 ^ Z.of_nat (length ds) <= dval (d :: ds)).
  { etransitivity; [|exact Hp]. apply Z.pow_le_mono_l. lia. }
  apply Z.log2_le_pow2 in H4; lia.
Qed.

Lemma d2_dig n : 0 <= n <= 99 -> Forall is_dig (d2 n) /\ dval (d2 n) = n.
Proof.
  intros Hn. unfold d2, dval, is_dig. cbn [fold_left].
  pose proof (Z.div_mod n 10 ltac:(lia)). pose proof (Z.mod_pos_bound n 10 ltac:(lia)).
  split; [repeat (apply Forall_cons; [cbv beta; lia|]); apply Forall_nil|lia].
Qed.

Lemma d4_dig n : 1000 <= n <= 9999 -> Forall is_dig (d4 n) /\ dval (d4 n) = n /\ 1 <= n / 1000.
Proof.
  intros Hn. unfold d4, dval, is_dig. cbn [fold_left].
  assert (E1 : n / 100 = n / 10 / 10) by (rewrite Z.div_div by lia; reflexivity).
  assert (E2 : n / 1000 = n / 10 / 10 / 10) by (rewrite !Z.div_div by lia; reflexivity).
  rewrite E1, E2. 
  pose proof (Z.div_mod n 10 ltac:(lia)). pose proof (Z.mod_pos_bound n 10 ltac:(lia)).
  pose proof (Z.div_mod (n/10) 10 ltac:(lia)). pose proof (Z.mod_pos_bound (n/10) 10 ltac:(lia)).
  pose proof (Z.div_mod (n/10/10) 10 ltac:(lia)). pose proof (Z.mod_pos_bound (n/10/10) 10 ltac:(lia)).
  split; [|split]; [repeat (apply Forall_cons; [cbv beta; lia|]); apply Forall_nil|lia|lia].
Qed.

Definition year_ok y := 1000 <= y <= 9999.

Lemma str_stamp8 y mo d : year_ok y -> 0 <= mo <= 99 -> 0 <= d <= 99 ->
  str_Z (stamp8 y mo d) = map dig (d4 y ++ d2 mo ++ d2 d).
Proof.
  intros Hy Hm Hd. destruct (d4_dig y Hy) as (A1 & A2 & A3). destruct (d2_dig mo Hm) as [B1 B2].
  destruct (d2_dig d Hd) as [C1 C2].
  assert (E : stamp8 y mo d = dval (d4 y ++ d2 mo ++ d2 d)).
  { unfold stamp8. rewrite !dval_app, A2, B2, C2. simpl length. simpl Z.of_nat. lia. }
  rewrite E. change (d4 y ++ d2 mo ++ d2 d) with
    (y / 1000 :: ([y / 100 mod 10; y / 10 mod 10; y mod 10] ++ d2 mo ++ d2 d)).
  apply str_Z_spec; auto. change (Forall is_dig (d4 y ++ d2 mo ++ d2 d)).
  repeat (apply Forall_app; split; auto).
Qed.

Lemma str_stamp10 y mo d h : year_ok y -> 0 <= mo <= 99 -> 0 <= d <= 99 -> 0 <= h <= 99 ->
  str_Z (stamp10 y mo d h) = map dig (d4 y ++ d2 mo ++ d2 d ++ d2 h).
Proof.
  intros Hy Hm Hd Hh. destruct (d4_dig y Hy) as (A1 & A2 & A3). destruct (d2_dig mo Hm) as [B1 B2].
  destruct (d2_dig d Hd) as [C1 C2]. destruct (d2_dig h Hh) as [D1 D2].
  assert (E : stamp10 y mo d h = dval (d4 y ++ d2 mo ++ d2 d ++ d2 h)).
  { unfold stamp10, stamp8. rewrite !dval_app, A2, B2, C2, D2. simpl length. simpl Z.of_nat. lia. }
  rewrite E. change (d4 y ++ d2 mo ++ d2 d ++ d2 h) with
    (y / 1000 :: ([y / 100 mod 10; y / 10 mod 10; y mod 10] ++ d2 mo ++ d2 d ++ d2 h)).
  apply str_Z_spec; auto. change (Forall is_dig (d4 y ++ d2 mo ++ d2 d ++ d2 h)).
  repeat (apply Forall_app; split; auto).
Qed.

Lemma str_stamp12 y mo d h mi : year_ok y -> 0 <= mo <= 99 -> 0 <= d <= 99 -> 0 <= h <= 99 -> 0 <= mi <= 99 ->
  str_Z (stamp12 y mo d h mi) = map dig (d4 y ++ d2 mo ++ d2 d ++ d2 h ++ d2 mi).
Proof.
  intros Hy Hm Hd Hh Hi. destruct (d4_dig y Hy) as (A1 & A2 & A3). destruct (d2_dig mo Hm) as [B1 B2].
  destruct (d2_dig d Hd) as [C1 C2]. destruct (d2_dig h Hh) as [D1 D2]. destruct (d2_dig mi Hi) as [E1 E2].
  assert (E : stamp12 y mo d h mi = dval (d4 y ++ d2 mo ++ d2 d ++ d2 h ++ d2 mi)).
  { unfold stamp12, stamp10, stamp8. rewrite !dval_app, A2, B2, C2, D2, E2.
    simpl length. simpl Z.of_nat. lia. }
  rewrite E. change (d4 y ++ d2 mo ++ d2 d ++ d2 h ++ d2 mi) with
    (y / 1000 :: ([y / 100 mod 10; y / 10 mod 10; y mod 10] ++ d2 mo ++ d2 d ++ d2 h ++ d2 mi)).
  apply str_Z_spec; auto. change (Forall is_dig (d4 y ++ d2 mo ++ d2 d ++ d2 h ++ d2 mi)).
  repeat (apply Forall_app; split; auto).
Qed.

Lemma str_stamp14 y mo d h mi s : year_ok y -> 0 <= mo <= 99 -> 0 <= d <= 99 -> 0 <= h <= 99 -> 0 <= mi <= 99 ->
  0 <= s <= 99 ->
  str_Z (stamp14 y mo d h mi s) = map dig (d4 y ++ d2 mo ++ d2 d ++ d2 h ++ d2 mi ++ d2 s).
Proof.
  intros Hy Hm Hd Hh Hi Hs. destruct (d4_dig y Hy) as (A1 & A2 & A3). destruct (d2_dig mo Hm) as [B1 B2].
  destruct (d2_dig d Hd) as [C1 C2]. destruct (d2_dig h Hh) as [D1 D2]. destruct (d2_dig mi Hi) as [E1 E2].
  destruct (d2_dig s Hs) as [F1 F2].
  assert (E : stamp14 y mo d h mi s = dval (d4 y ++ d2 mo ++ d2 d ++ d2 h ++ d2 mi ++ d2 s)).
  { unfold stamp14, stamp12, stamp10, stamp8. rewrite !dval_app, A2, B2, C2, D2, E2, F2.
    simpl length. simpl Z.of_nat. lia. }
  rewrite E. change (d4 y ++ d2 mo ++ d2 d ++ d2 h ++ d2 mi ++ d2 s) with
    (y / 1000 :: ([y / 100 mod 10; y / 10 mod 10; y mod 10] ++ d2 mo ++ d2 d ++ d2 h ++ d2 mi ++ d2 s)).
  apply str_Z_spec; auto. change (Forall is_dig (d4 y ++ d2 mo ++ d2 d ++ d2 h ++ d2 mi ++ d2 s)).
  repeat (apply Forall_app; split; auto).
Qed.

Ltac fld y mo d h mi :=
  unfold year_ok in *;
  pose proof (proj2 (d2_dig mo ltac:(lia))); pose proof (proj2 (d2_dig d ltac:(lia)));
  pose proof (proj1 (proj2 (d4_dig y ltac:(lia)))).

(* value on the four formats *)
Lemma change_stamp12 y mo d h mi : year_ok y -> 0 <= mo <= 99 -> 0 <= d <= 99 -> 0 <= h <= 99 -> 0 <= mi <= 99 ->
  change_date (str_Z (stamp12 y mo d h mi)) = Fin (decimal_year (y, mo, d, h, mi)).
Proof.
  intros Hy Hm Hd Hh Hi. rewrite str_stamp12 by auto. rewrite change_date_digs.
  - unfold fields. cbn [length app d4 d2 Nat.leb firstn skipn].
    fold (d2 mo). fold (d2 d). fold (d2 h). fold (d2 mi). fold (d4 y).
    rewrite (proj2 (d2_dig mo Hm)), (proj2 (d2_dig d Hd)), (proj2 (d2_dig h Hh)), (proj2 (d2_dig mi Hi)).
    now rewrite (proj1 (proj2 (d4_dig y Hy))).
  - repeat (apply Forall_app; split); try apply d2_dig; try apply d4_dig; auto.
  - simpl. lia.
Qed.

Lemma change_stamp14 y mo d h mi s : year_ok y -> 0 <= mo <= 99 -> 0 <= d <= 99 -> 0 <= h <= 99 -> 0 <= mi <= 99 ->
  0 <= s <= 99 ->
  change_date (str_Z (stamp14 y mo d h mi s)) = Fin (decimal_year (y, mo, d, h, mi)).
Proof.
  intros Hy Hm Hd Hh Hi Hs. rewrite str_stamp14 by auto. rewrite change_date_digs.
  - unfold fields. cbn [length app d4 d2 Nat.leb firstn skipn].
    fold (d2 mo). fold (d2 d). fold (d2 h). fold (d2 mi). fold (d4 y).
    rewrite (proj2 (d2_dig mo Hm)), (proj2 (d2_dig d Hd)), (proj2 (d2_dig h Hh)), (proj2 (d2_dig mi Hi)).
    now rewrite (proj1 (proj2 (d4_dig y Hy))).
  - repeat (apply Forall_app; split); try apply d2_dig; try apply d4_dig; auto.
  - simpl. lia.
Qed.

Lemma change_stamp8 y mo d : year_ok y -> 0 <= mo <= 99 -> 0 <= d <= 99 ->
  change_date (str_Z (stamp8 y mo d)) = Fin (decimal_year (y, mo, d, 0, 0)).
Proof.
  intros Hy Hm Hd. rewrite str_stamp8 by auto. rewrite change_date_digs.
  - unfold fields. cbn [length app d4 d2 Nat.leb firstn skipn].
    fold (d2 mo). fold (d2 d). fold (d4 y).
    rewrite (proj2 (d2_dig mo Hm)), (proj2 (d2_dig d Hd)).
    now rewrite (proj1 (proj2 (d4_dig y Hy))).
  - repeat (apply Forall_app; split); try apply d2_dig; try apply d4_dig; auto.
  - simpl. lia.
Qed.

Lemma change_stamp10 y mo d h : year_ok y -> 0 <= mo <= 99 -> 0 <= d <= 99 -> 0 <= h <= 99 ->
  change_date (str_Z (stamp10 y mo d h)) = Fin (decimal_year (y, mo, d, h, 0)).
Proof.
  intros Hy Hm Hd Hh. rewrite str_stamp10 by auto. rewrite change_date_digs.
  - unfold fields. cbn [length app d4 d2 Nat.leb firstn skipn].
    fold (d2 mo). fold (d2 d). fold (d2 h). fold (d4 y).
    rewrite (proj2 (d2_dig mo Hm)), (proj2 (d2_dig d Hd)), (proj2 (d2_dig h Hh)).
    now rewrite (proj1 (proj2 (d4_dig y Hy))).
  - repeat (apply Forall_app; split); try apply d2_dig; try apply d4_dig; auto.
  - simpl. lia.
Qed.

(* genuine dates *)
Lemma mlen31 m : 0 <= m <= 11 -> nth (Z.to_nat m) month_length 0 <= 31.
Proof.
  intros A.
  assert (H : m = 0 \/ m = 1 \/ m = 2 \/ m = 3 \/ m = 4 \/ m = 5 \/ m = 6
    \/ m = 7 \/ m = 8 \/ m = 9 \/ m = 10 \/ m = 11) by lia.
  repeat (destruct H as [->|H]); try subst m; vm_compute; discriminate.
Qed.

Lemma decimal_year_real y mo d h mi : real_date (mo - 1) d h mi ->
  decimal_year (y, mo, d, h, mi) = (IZR y + IZR (minute_of_year (mo - 1) d h mi) / 1440 / 365)%R.
Proof.
  intros Hr. pose proof (real_date_range _ _ _ _ Hr). destruct Hr as (Hm & Hd & _).
  pose proof (mlen31 _ Hm). unfold decimal_year.
  destruct (Z.leb_spec 1 mo); [|lia]. destruct (Z.leb_spec mo 12); [|lia].
  destruct (Z.leb_spec 1 d); [|lia]. destruct (Z.leb_spec d 31); [|lia].
  destruct (Z.leb_spec (minute_of_year (mo - 1) d h mi) (366 * 1440)); [|lia]. reflexivity.
Qed.

Lemma decimal_year_in_year y mo d h mi : real_date (mo - 1) d h mi ->
  (IZR y <= decimal_year (y, mo, d, h, mi) < IZR y + 1)%R.
Proof.
  intros Hr. rewrite decimal_year_real by auto.
  destruct (real_date_range _ _ _ _ Hr) as [A B]. apply IZR_le in A. apply IZR_lt in B.
  rewrite mult_IZR in B. lra.
Qed.

Lemma decimal_year_order y mo d h mi y' mo' d' h' mi' :
  real_date (mo - 1) d h mi -> real_date (mo' - 1) d' h' mi' ->
  (y < y' \/ y = y' /\ earlier (mo, d, h, mi) (mo', d', h', mi')) ->
  (decimal_year (y, mo, d, h, mi) < decimal_year (y', mo', d', h', mi'))%R.
Proof.
  intros R1 R2 [Hy|[-> He]].
  - pose proof (decimal_year_in_year y _ _ _ _ R1). pose proof (decimal_year_in_year y' _ _ _ _ R2).
    assert (y + 1 <= y') by lia. apply IZR_le in H1. rewrite plus_IZR in H1. lra.
  - rewrite !decimal_year_real by auto.
    assert (E : minute_of_year (mo - 1) d h mi < minute_of_year (mo' - 1) d' h' mi').
    { apply earlier_lt; auto. unfold earlier in *. lia. }
    apply IZR_lt in E. lra.
Qed.

Lemma decimal_year_feb29 y h mi : 0 <= h <= 23 -> 0 <= mi <= 59 ->
  decimal_year (y, 2, 29, h, mi) = decimal_year (y, 3, 1, h, mi).
Proof.
  intros Hh Hi. unfold decimal_year. cbn [Z.leb Z.compare Pos.compare Pos.compare_cont andb].
  assert (E : minute_of_year (2 - 1) 29 h mi = minute_of_year (3 - 1) 1 h mi).
  { unfold minute_of_year. change (days_before (2-1)) with 31. change (days_before (3-1)) with 59. lia. }
  rewrite E. reflexivity.
Qed.

Lemma real_date_fields mo d h mi : real_date (mo - 1) d h mi ->
  0 <= mo <= 99 /\ 0 <= d <= 99 /\ 0 <= h <= 99 /\ 0 <= mi <= 99.
Proof. intros (A & B & C & D). pose proof (mlen31 _ A). lia. Qed.
