(* The settings in a mapped file *)
From Coq Require Import String Ascii.
From Coq Require Import ZArith List Bool Reals.
From Verif Require Import Num Np Helper MapProfile Mapping.
Import ListNotations.
Local Open Scope string_scope.

(* the keys of the file with the settings they stand for *)
Definition run_settings (cfg : map_config XR) : list (string * XR) :=
  [("scale_lat_large", mc_lat_large cfg); ("scale_lat_small", mc_lat_small cfg);
   ("scale_long_large", mc_long_large cfg); ("scale_long_small", mc_long_small cfg);
   ("scale_phi_large", mc_phi_large cfg); ("scale_phi_small", mc_phi_small cfg);
   ("scale_age_large", mc_age_large cfg); ("scale_age_small", mc_age_small cfg);
   ("use_pv", Fin (IZR (mc_use_pv cfg))); ("use_saf", Fin (IZR (mc_use_saf cfg)));
   ("p_delta", mc_p_delta cfg); ("p_exclude", mc_p_exclude cfg)].
(* a profile of which something was mapped *)
Definition mapped_profile (calc : nat -> res (nat -> res (option (level_out XR)))) (levels p : nat) : Prop :=
  exists lev n o, calc p = Ok lev /\ (n < levels)%nat /\ lev n = Ok (Some o).
