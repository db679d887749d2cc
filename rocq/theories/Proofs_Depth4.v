(* The depths of the mapping in terms of whole profiles; an interpolation that is linear *)
From Coq Require Import String Ascii.
From Coq Require Import ZArith List Bool Reals Lra Lia Arith.
From Verif Require Import Num Np NumFacts NpFacts Topo Spec_Topo Spec_Depth Proofs_Besthist Proofs_Interp Proofs_Topo Proofs_Depth Proofs_Depth2 Proofs_Depth3
  Utilities Spec_Utilities Proofs_Utilities4 Finders Stats Wrangling Fetchers Spec_Fetchers Saf Helper MapProfile Spec_MapLevel
  Proofs_Fetchers Proofs_Region Proofs_FetchersEx Proofs_MapProfile.
Import ListNotations.
Local Open Scope R_scope.

Lemma nil_or {A} (l : list A) : l = [] \/ l <> [].
Proof. destruct l; [left; reflexivity|right; discriminate]. Qed.

Section Profile.
  Context {rng : Type}.
  Variable seed : Z -> rng.
  Variable rand : rng -> nat -> list XR * rng.
  Variable g0 : rng.
  Variable unstable_argsort : list XR -> list nat.
  Variable inv : nat -> (nat -> nat -> XR) -> res (nat -> nat -> XR).
  Variable np_interp : XR -> list XR -> list XR -> XR.
  Variable sa_from_sp : XR -> XR -> XR -> XR -> XR.
  Variable ct_from_pt : XR -> XR -> XR.
  Variable t_from_ct : XR -> XR -> XR -> XR.
  Variable interp2d : list XR -> list XR -> list (list Z) -> XR -> XR -> res XR.
  Variable tbase : binfile.
  Variable read_mat : string -> res (ref_data XR).
  Variable date_str : XR -> list ascii.
  Variable cfg : map_config XR.
  Variable float_name : string.
  Notation levels_of := (profile_levels seed rand g0 unstable_argsort inv np_interp sa_from_sp ct_from_pt t_from_ct interp2d tbase read_mat date_str cfg float_name).
  Notation history_of := (best_history seed rand g0 unstable_argsort np_interp sa_from_sp ct_from_pt t_from_ct interp2d tbase read_mat date_str cfg float_name).
  Hypothesis Hf : tbase_file tbase.
  Hypothesis HI : linear_interp2d interp2d.

  Lemma wrap_float_fin l x : exists k : Z, wrap_float l (Fin x) = Fin (x + 360 * IZR k).
  Proof.
    unfold wrap_float. destruct (_ && _ && _); [exists 1%Z|exists 0%Z]; cbn; f_equal; lra.
  Qed.

  Theorem float_depth s i fd lo la lev : get_float_data s i = Ok fd -> mappable_profile fd -> fd_long fd = Fin lo -> fd_lat fd = Fin la -> on_map lo la ->
    levels_of s i = Ok lev ->
    exists d g, sea_floor tbase lo la d /\ history_of fd (Fin d) = Ok g /\
      forall n o, lev n = Ok (Some o) -> exists k ptmp h,
        map_level inv cfg (mkPoint (Fin la) (Fin (lo + 360 * IZR k)) (fd_date fd) (Fin d)) ptmp h = Ok (Some o).
  Proof.
    intros E MP EL EA OM EV. unfold profile_levels in EV. rewrite E in EV. cbn [bind] in EV.
    rewrite (proj2 (usable_iff fd) MP) in EV. rewrite EL, EA in EV.
    destruct (float_elevation tbase interp2d Hf HI lo la OM) as (d & ED & SF). rewrite ED in EV. cbn [bind hd] in EV.
    change (nopp (Fin (- d))) with (Fin (- - d)) in EV. rewrite Ropp_involutive in EV.
    destruct (history_of fd (Fin d)) as [g|] eqn:EH; [|discriminate]. cbn [bind] in EV.
    destruct (interp_climatology _ _ _ _) as [it|]; [|discriminate]. cbn [bind] in EV. injection EV as <-.
    exists d, g. split; [exact SF|]. split; [exact EH|]. intros n o EO.
    destruct (nth_error (fd_sal fd) n) as [sal|]; [|discriminate]. destruct (nth_error (fd_pres fd) n) as [pres|]; [|discriminate].
    destruct (_ && _); [|discriminate]. destruct (process_profile_hist_variables _ _ _ _ _ _ _) as [h|]; [|discriminate]. cbn [bind] in EO.
    destruct (wrap_float_fin (gr_long g) lo) as [k EK]. rewrite EK in EO. eauto.
  Qed.

  Variable db : database XR.
  Hypothesis Hdb : reads db read_mat.
  Variable other : string -> bool.
  Hypothesis Hother : excludes float_name other.
  Hypothesis H4 : four_columns (mc_boxes cfg).

  Theorem history_sea_floor fd z g boxes : mappable_profile fd -> mc_use_saf cfg <> 1%Z -> find_25boxes (fd_long fd) (fd_lat fd) (mc_boxes cfg) = Ok boxes ->
    let cs := region_casts db (mc_db cfg) other boxes in
    (forall c, In c cs -> exists lo la, c_long c = Fin lo /\ c_lat c = Fin la /\ on_map lo la) ->
    history_of fd z = Ok g ->
    exists ds index, length ds = length cs /\ (forall i, In i index -> (i < length cs)%nat) /\
      gr_z g = map (fun i => Fin (nth i ds 0)) index /\
      forall i c, nth_error cs i = Some c -> exists lo la, c_long c = Fin lo /\ c_lat c = Fin la /\ sea_floor tbase lo la (nth i ds 0).
  Proof.
    intros MP HU EB cs HC E. destruct MP as (ML & MA & _).
    unfold best_history in E. rewrite EB in E. cbn [bind] in E.
    assert (F4 : four_columns boxes) by (intros row Hr; apply H4; now apply (boxes_rows _ _ _ _ EB ML MA)).
    pose proof (locations db read_mat (mc_db cfg) float_name Hdb other Hother date_str boxes F4) as EL. cbv zeta in EL. fold cs in EL.
    destruct (nil_or cs) as [NC|NC].
    { rewrite EL, NC in E. discriminate. }
    assert (EL' : get_region_hist_locations read_mat date_str boxes float_name (mc_db cfg) =
                  Ok (map c_lat cs, wrap_longitude (map c_long cs), map (fun c : cast XR => change_date (date_str (c_date c))) cs)).
    { rewrite EL. clear - NC. clearbody cs. destruct cs; [congruence|reflexivity]. }
    rewrite EL' in E. clear EL EL'.
    cbn [bind] in E.
    set (los := map (fun c : cast XR => match c_long c with Fin r => r | _ => 0 end) cs).
    set (las := map (fun c : cast XR => match c_lat c with Fin r => r | _ => 0 end) cs).
    assert (ELo : map c_long cs = map Fin los).
    { unfold los. rewrite map_map. apply map_ext_in. intros c Hc. destruct (HC c Hc) as (lo & la & -> & _). reflexivity. }
    assert (ELa : map c_lat cs = map Fin las).
    { unfold las. rewrite map_map. apply map_ext_in. intros c Hc. destruct (HC c Hc) as (lo & la & _ & -> & _). reflexivity. }
    assert (L1 : length los = length cs) by apply map_length. assert (L2 : length las = length cs) by apply map_length.
    assert (AT : forall i c, nth_error cs i = Some c -> exists lo la, c_long c = Fin lo /\ c_lat c = Fin la /\ on_map lo la /\ nth i los 0 = lo /\ nth i las 0 = la).
    { intros i c Hc. assert (Hi : (i < length cs)%nat) by (apply nth_error_Some; congruence).
      destruct (HC c (nth_error_In _ _ Hc)) as (lo & la & A & B & C). exists lo, la. do 3 (split; [assumption|]).
      unfold los, las. rewrite !(nth_map _ cs i _ c) by exact Hi. rewrite (nth_error_nth _ _ c Hc), A, B. now split. }
    rewrite ELo, ELa in E.
    destruct (casts_depths tbase interp2d Hf HI los las) as (ds & ED & LD & SD).
    { intros C. apply NC. rewrite C in L1. destruct cs; [reflexivity|discriminate]. }
    { congruence. }
    { intros i Hi. rewrite L1 in Hi. destruct (nth_error cs i) as [c|] eqn:EC; [|apply nth_error_None in EC; lia].
      destruct (AT i c EC) as (lo & la & _ & _ & OM & -> & ->). exact OM. }
    rewrite ED in E. cbn [bind] in E.
    destruct (fst (find_besthist _ _ _ _ _ _ _ _ _ _ _ _ _ _ _ _ _ _ _)) as [index|] eqn:EI; [|discriminate]. cbn [bind] in E.
    destruct (get_region_data _ _ _ _ _ _ _) as [best|]; [|discriminate]. cbn [bind] in E.
    destruct (index_array nnan (map Fin ds) index) as [bz|] eqn:EX; [|discriminate]. cbn [bind] in E.
    destruct (Z.eqb_spec (mc_use_saf cfg) 1) as [C|_]; [contradiction|].
    apply ok_inj in E. subst g. cbn [gr_z]. clear EI.
    unfold index_array in EX. destruct (forallb _ index) eqn:EF; [|discriminate]. apply ok_inj in EX. subst bz.
    assert (IX : forall i, In i index -> (i < length cs)%nat).
    { rewrite forallb_forall in EF. intros i Hi. specialize (EF i Hi). apply Nat.ltb_lt in EF. rewrite map_length in EF. congruence. }
    exists ds, index. split; [congruence|]. split; [exact IX|]. split.
    - apply map_ext_in. intros i Hi. rewrite (nth_map Fin ds i _ 0) by (rewrite LD, L1; now apply IX). reflexivity.
    - intros i c Hc. destruct (AT i c Hc) as (lo & la & A & B & _ & C & D). exists lo, la. split; [exact A|]. split; [exact B|].
      rewrite <- C, <- D. apply SD. rewrite L1. apply nth_error_Some. congruence.
  Qed.
End Profile.

(* ---- an interpolation as assumed ---- *)
Fixpoint least (P : nat -> bool) (n k : nat) : nat :=
  match n with O => k | S m => if P k then k else least P m (S k) end.
Lemma least_spec P : forall n k j, (k <= j < k + n)%nat -> P j = true -> P (least P n k) = true /\ (k <= least P n k <= j)%nat.
Proof.
  induction n as [|n IH]; intros k j Hj HP; [lia|]. cbn [least]. destruct (P k) eqn:E; [split; [exact E|lia]|].
  destruct (Nat.eq_dec j k) as [->|NE]; [congruence|]. destruct (IH (S k) j ltac:(lia) HP) as [A B]. split; [exact A|lia].
Qed.
Definition real_of (x : XR) : R := match x with Fin r => r | _ => 0 end.
Definition demo_interp2d (x y : list XR) (z : list (list Z)) (a b : XR) : res XR :=
  let xs := map real_of x in let ys := map real_of y in let a := real_of a in let b := real_of b in
  let j := least (fun k => Rleb a (nth (S k) xs 0)) (length xs) 0 in
  let i := least (fun k => Rleb (nth (S k) ys 0) b) (length ys) 0 in
  let corner k l := IZR (nth l (nth k z []) 0%Z) in
  Ok (Fin (bilinear ((a - nth j xs 0) / (nth (S j) xs 0 - nth j xs 0)) ((nth i ys 0 - b) / (nth i ys 0 - nth (S i) ys 0))
                    (corner i j) (corner i (S j)) (corner (S i) j) (corner (S i) (S j)))).

Lemma ascending_le (xs : list R) : (forall k, (S k < length xs)%nat -> nth k xs 0 < nth (S k) xs 0) ->
  forall i j, (i <= j < length xs)%nat -> nth i xs 0 <= nth j xs 0 /\ ((i < j)%nat -> nth i xs 0 < nth j xs 0).
Proof.
  intros H i j. induction j as [|j IH]; intros Hj.
  - replace i with 0%nat by lia. split; [lra|lia].
  - destruct (Nat.eq_dec i (S j)) as [->|NE]; [split; [lra|lia]|]. destruct (IH ltac:(lia)) as [A B]. pose proof (H j ltac:(lia)). split; [lra|intros _; lra].
Qed.
(* the value does not depend on the choice of the cell *)
Lemma cell_choice (xs : list R) (a : R) (g : nat -> R) j0 j :
  (forall k, (S k < length xs)%nat -> nth k xs 0 < nth (S k) xs 0) -> (j0 <= j)%nat -> (S j < length xs)%nat ->
  a <= nth (S j0) xs 0 -> nth j xs 0 <= a ->
  let u k := (a - nth k xs 0) / (nth (S k) xs 0 - nth k xs 0) in
  (1 - u j0) * g j0 + u j0 * g (S j0) = (1 - u j) * g j + u j * g (S j).
Proof.
  intros HA L1 L2 B1 B2 u. destruct (Nat.eq_dec j0 j) as [->|NE]; [reflexivity|].
  destruct (ascending_le xs HA (S j0) j ltac:(lia)) as [C D].
  assert (EJ : j = S j0). { destruct (Nat.eq_dec (S j0) j) as [E|N2]; [auto|]. specialize (D ltac:(lia)). lra. }
  subst j. assert (EA : a = nth (S j0) xs 0) by lra. pose proof (HA j0 ltac:(lia)) as P0. pose proof (HA (S j0) ltac:(lia)) as P1.
  assert (U0 : u j0 = 1) by (unfold u; rewrite EA; field; lra). assert (U1 : u (S j0) = 0) by (unfold u; rewrite EA; field; lra).
  rewrite U0, U1. lra.
Qed.

Theorem demo_linear : linear_interp2d demo_interp2d.
Proof.
  intros xs ys z a b i j HX HY LZ LR Hi Hj BA BB corner. unfold demo_interp2d. cbv zeta.
  assert (ER : forall l, map real_of (map Fin l) = l) by (intros l; rewrite map_map; apply map_id). rewrite !ER. cbn [real_of].
  set (j0 := least _ (length xs) 0). set (i0 := least _ (length ys) 0).
  assert (J0 : a <= nth (S j0) xs 0 /\ (j0 <= j)%nat).
  { destruct (least_spec (fun k => Rleb a (nth (S k) xs 0)) (length xs) 0 j ltac:(lia)) as [A B]; [cbv beta; apply Rleb_true; lra|].
    fold j0 in A, B. cbv beta in A. apply Rleb_true in A. split; [exact A|lia]. }
  assert (I0 : nth (S i0) ys 0 <= b /\ (i0 <= i)%nat).
  { destruct (least_spec (fun k => Rleb (nth (S k) ys 0) b) (length ys) 0 i ltac:(lia)) as [A B]; [cbv beta; apply Rleb_true; lra|].
    fold i0 in A, B. cbv beta in A. apply Rleb_true in A. split; [exact A|lia]. }
  do 2 f_equal. unfold bilinear.
  assert (CX : forall k, (1 - (a - nth j0 xs 0) / (nth (S j0) xs 0 - nth j0 xs 0)) * corner k j0 + (a - nth j0 xs 0) / (nth (S j0) xs 0 - nth j0 xs 0) * corner k (S j0) =
                         (1 - (a - nth j xs 0) / (nth (S j) xs 0 - nth j xs 0)) * corner k j + (a - nth j xs 0) / (nth (S j) xs 0 - nth j xs 0) * corner k (S j)).
  { intros k. apply (cell_choice xs a (corner k) j0 j HX); [apply J0|exact Hj|apply J0|apply BA]. }
  unfold corner in CX |- *. rewrite !CX.
  set (h := fun k => (1 - (a - nth j xs 0) / (nth (S j) xs 0 - nth j xs 0)) * IZR (nth j (nth k z []) 0%Z) + (a - nth j xs 0) / (nth (S j) xs 0 - nth j xs 0) * IZR (nth (S j) (nth k z []) 0%Z)).
  change ((1 - (nth i0 ys 0 - b) / (nth i0 ys 0 - nth (S i0) ys 0)) * h i0 + (nth i0 ys 0 - b) / (nth i0 ys 0 - nth (S i0) ys 0) * h (S i0) =
          (1 - (nth i ys 0 - b) / (nth i ys 0 - nth (S i) ys 0)) * h i + (nth i ys 0 - b) / (nth i ys 0 - nth (S i) ys 0) * h (S i)).
  assert (EN : forall k, nth k (map Ropp ys) 0 = - nth k ys 0).
  { intros k. replace 0 with (- 0) at 1 by lra. apply map_nth. }
  assert (CY := cell_choice (map Ropp ys) (- b) h i0 i). cbv zeta in CY. rewrite (map_length Ropp ys) in CY.
  specialize (CY ltac:(intros k Hk; rewrite !EN; specialize (HY k Hk); lra) (proj2 I0) Hi).
  rewrite !EN in CY. specialize (CY ltac:(lra) ltac:(lra)).
  replace (- b - - nth i0 ys 0) with (nth i0 ys 0 - b) in CY by lra. replace (- b - - nth i ys 0) with (nth i ys 0 - b) in CY by lra.
  replace (- nth (S i0) ys 0 - - nth i0 ys 0) with (nth i0 ys 0 - nth (S i0) ys 0) in CY by lra.
  replace (- nth (S i) ys 0 - - nth i ys 0) with (nth i ys 0 - nth (S i) ys 0) in CY by lra. exact CY.
Qed.
