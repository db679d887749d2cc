(* Six casts, and a quota of six *)
From Coq Require Import String Ascii.
From Coq Require Import ZArith List Bool Reals Lra Lia.
From Verif Require Import Num Np Utilities Finders Stats Topo Fetchers Helper MapProfile Mapping Spec_Quota Proofs_Drift5 Proofs_BiasEx.
Import ListNotations.

Lemma filter_le {A} (p : A -> bool) l : length (filter p l) <= length l.
Proof. induction l as [|a l IH]; [reflexivity|]. cbn. destruct (p a); cbn; lia. Qed.
Lemma six_few : exists box, forall m i fd, (6 <= m)%Z -> get_float_data six_source i = Ok fd -> at_most six_sea flat_sea six_read six_date (six_cfg box) "3901960" m fd.
Proof.
  destruct six_boxes as (box & ns & EB & NI). exists box. intros m i fd Hm EG. assert (fd = six_float) as ->.
  { destruct i as [|[|i]]; [|discriminate EG..]. change (get_float_data six_source 0) with (Ok six_float) in EG. congruence. }
  intros boxes lats longs dates depths el E25 EL _ _. change (fd_long six_float) with (Fin 10) in E25. change (fd_lat six_float) with (Fin 2) in E25.
  change (mc_boxes (six_cfg box)) with (six_table box) in E25. rewrite EB in E25. injection E25 as <-. change (mc_db (six_cfg box)) with (mkDbConfig XR "db" "ctd_" "bot_" "argo_" (Fin 250)) in EL.
  rewrite six_locations in EL by exact NI. assert (lats = six_lats) as -> by congruence. clear EL. etransitivity; [|exact Hm]. change 6%Z with (Z.of_nat 6). apply inj_le.
  etransitivity; [apply filter_le|]. rewrite !combine_length. unfold six_lats. rewrite map_length, seq_length. lia.
Qed.
