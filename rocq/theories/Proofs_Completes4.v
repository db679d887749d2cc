(* A mapping that completes: all profiles of a float *)
From Coq Require Import String Ascii.
From Coq Require Import ZArith List Bool Reals Lra Lia.
From Verif Require Import Num Np NumFacts Utilities Finders Stats Wrangling Topo Fetchers Spec_Fetchers Saf Helper MapProfile Mapping Spec_Finders Spec_Stats Spec_FitCond Spec_Map Spec_Mapping
  Spec_Topo Spec_Depth Spec_Helper Spec_Interp Spec_MapLevel Spec_Utilities Spec_Bias Spec_Seam Spec_Whole Spec_Completes Proofs_MapProfile Proofs_Completes2 Proofs_Completes3.
Import Helper Stats Spec_Fetchers ListNotations.
Local Open Scope R_scope.

Section Completes.
  Context {rng : Type}.
  Variable seed : Z -> rng.
  Variable rand : rng -> nat -> list XR * rng.
  Variable g0 : rng.
  Variable unstable_argsort : list XR -> list nat.
  Variable inv : nat -> (nat -> nat -> XR) -> res (nat -> nat -> XR).
  Variable np_interp : XR -> list XR -> list XR -> XR.
  Variable sa_from_sp : XR -> XR -> XR -> XR -> XR.
  Variable ct_from_pt : XR -> XR -> XR.
  Variable t_from_ct : XR -> XR -> XR -> XR.
  Variable interp2d : list XR -> list XR -> list (list Z) -> XR -> XR -> res XR.
  Variable tbase : binfile.
  Variable read_mat : string -> res (ref_data XR).
  Variable date_str : XR -> list ascii.
  Variable cfg : map_config XR.
  Variable float_name : string.
  Notation levels_of := (profile_levels seed rand g0 unstable_argsort inv np_interp sa_from_sp ct_from_pt t_from_ct interp2d tbase read_mat date_str cfg float_name).
  Hypothesis HR : rand_ok rand.
  Hypothesis HQ : argsort_ok unstable_argsort.
  Hypothesis Hinv : inv_ok inv.
  Hypothesis Hf : tbase_file tbase.
  Hypothesis HA : answers interp2d.
  Variables large small : scales.
  Hypothesis HC : config_scales cfg large small.
  Hypothesis NL : scales_nonzero large.
  Hypothesis NS : scales_nonzero small.
  Hypothesis NA : s_age large <> 0 /\ s_age small <> 0.
  Hypothesis NP : s_pv large = false.
  Hypothesis HM : (mc_max_casts cfg = 3 \/ 5 <= mc_max_casts cfg)%Z.
  Hypothesis HU : mc_use_saf cfg <> 1%Z.
  Variables delta ex : R.
  Hypothesis Hdelta : mc_p_delta cfg = Fin delta.
  Hypothesis Hex : mc_p_exclude cfg = Fin ex.
  Variable db : database XR.
  Hypothesis Hdb : reads db read_mat.
  Variable other : string -> bool.
  Hypothesis Hother : excludes float_name other.
  Hypothesis H4 : four_columns (mc_boxes cfg).
  Hypothesis H648 : length (mc_boxes cfg) = 648%nat.
  Notation ready := (ready seed rand g0 unstable_argsort interp2d date_str cfg large delta ex db other).
  Notation level_points := (level_points seed rand g0 unstable_argsort interp2d date_str cfg delta).
  Notation mapped_at := (mapped_at ex).
  Variable qs : list XR -> list nat.
  Hypothesis HS : sorting qs.

  Theorem mapping_completes cwd paths float_dir src st : st (load_path cwd paths float_dir float_name) = None ->
    (forall i, (i < length (src_no src))%nat -> exists fd, get_float_data src i = Ok fd /\ length (fd_sal fd) = src_levels src /\
       (mappable_profile fd -> exists cs pos, ready fd cs pos)) ->
    (exists i fd cs pos n t p, (i < length (src_no src))%nat /\ get_float_data src i = Ok fd /\ ready fd cs pos /\ mapped_at fd n t p /\
       forall pts, level_points fd cs pos t p pts -> (5 < length pts)%nat) ->
    exists st' d, update_salinity_mapping qs levels_of cwd paths cfg src float_dir float_name st = (Ok tt, st') /\ st' (save_path cwd paths float_name) = Some d.
  Proof.
    intros E0 HP (i & fd & cs & pos & n & t & p & Hi & EG & RD & MA & PTS).
    assert (PC : forall s i fd cs pos, get_float_data s i = Ok fd -> ready fd cs pos ->
      exists lev, levels_of s i = Ok lev /\ forall n, (n < length (fd_sal fd))%nat -> (lev n = Ok None \/ exists o, lev n = Ok (Some o) /\ lo_points o <> []) /\
      forall t p, mapped_at fd n t p -> exists pts, level_points fd cs pos t p pts /\
        ((length pts <= 5)%nat -> lev n = Ok None) /\ ((5 < length pts)%nat -> exists o, lev n = Ok (Some o) /\ lo_points o <> [])).
    { eapply profile_completes; eassumption. }
    apply run_completes; [exact HS|exact E0| |].
    - intros j Hj. destruct (HP j Hj) as (fdj & EGj & LS & HR1). destruct (MapProfile.usable fdj) eqn:U.
      + destruct (HR1 (proj1 (usable_iff fdj) U)) as (csj & posj & RDj). destruct (PC src j fdj csj posj EGj RDj) as (lev & EL & HL). exists lev. split; [exact EL|].
        intros m Hm. rewrite <- LS in Hm. apply (HL m Hm).
      + assert (NM : ~ mappable_profile fdj) by (intros C; apply usable_iff in C; congruence). destruct (profile_skipped seed rand g0 unstable_argsort inv np_interp sa_from_sp ct_from_pt t_from_ct interp2d tbase read_mat date_str cfg float_name src j fdj EGj NM) as (lev & EL & HL).
        exists lev. split; [exact EL|]. intros m Hm. left. apply HL.
    - destruct (PC src i fd cs pos EG RD) as (lev & EL & HL). assert (Ln : (n < length (fd_sal fd))%nat) by (apply nth_error_Some; destruct MA as ((s & Es) & _); congruence).
      destruct (HL n Ln) as [_ L2]. destruct (L2 t p MA) as (pts & LPt & _ & L5). destruct (L5 (PTS pts LPt)) as (o & EO & _). exists i, n, lev, o.
      split; [exact Hi|]. destruct (HP i Hi) as (fd' & EG' & LS & _). rewrite EG in EG'. apply ok_inj in EG'. subst fd'. rewrite <- LS. split; [exact Ln|]. split; [exact EL|exact EO].
  Qed.
End Completes.
