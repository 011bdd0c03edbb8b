(** Proofs about streets of coverage in binary64: the field of regard of a swath. *)
From Coq Require Import ZArith Reals Lra.
From Flocq Require Import Core IEEE754.BinarySingleNaN.
From Verif Require Import Base RBase Float_Model Float_Spec FGrid_Model FGeom_Spec Geom_Spec Geom_Proofs FGeom_Proofs FSoc_Model FSoc_Spec FSoc_Proofs2 FSoc_Proofs3.
Open Scope R_scope.

Lemma regard_value f_sin f_cos f_asin f_acos f_atan : accurate_libm f_sin f_cos f_asin f_acos -> accurate_atan f_atan ->
  forall s, usual_streets s ->
  let rho := EARTH_MEAN_RADIUS / (EARTH_MEAN_RADIUS + val (fs_altitude s)) in
  let lam := val (fs_swath s) / 2 / EARTH_MEAN_RADIUS in
  exists f eta, f_swath_to_regard f_sin f_cos f_asin f_atan (fs_altitude s) (fs_swath s) (of_Z 0) = Ok f
    /\ off_nadir rho lam eta /\ 0 <= eta < PI / 2 /\ finite f /\ Rabs (val f - degrees (2 * eta)) <= 2.12e-9.
Proof.
  intros LM AT s (FA & BA & FW & BW & FP & BP & HL & HM) rho lam. pose proof (street_facts _ _ BA BW HL HM) as ST.
  destruct (regard_lemma f_sin f_cos f_asin f_acos f_atan LM AT _ _ FA BA FW ST) as (f & E & [F D] & _). exists f. eexists. split; [exact E|].
  pose proof (st_rho _ _ ST) as R1. pose proof (st_lam _ _ ST) as L1.
  assert (RR : rho = rho_of (val (fs_altitude s)) 0) by (unfold rho, rho_of; now rewrite Rplus_0_r). cbv zeta in HL. fold rho lam in HL. rewrite RR in *.
  destruct (edge_angles (rho_of (val (fs_altitude s)) 0) lam ltac:(lra)) as [E1 [E2 E3]]; [split; [unfold lam; lra|exact HL]|].
  split; [exact E2|]. split; [exact E1|]. split; [exact F|exact D].
Qed.
