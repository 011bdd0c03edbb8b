(** Specification vocabulary for the two-line elements of constellation members. *)
From Coq Require Import Reals ZArith QArith List Bool.
From Verif Require Import Base RBase Tle_Model Orbit_Model Orbit_Spec Const_Model Const_Spec Export_Model Export_Spec.
Import ListNotations.
Open Scope R_scope.

(** What to_tle of a freshly made orbit returns (two-line elements return themselves and are
    left out). *)
Definition converts (ex : elset -> pyres (list pystr)) (sun : Z -> R) (rc : bool) (lazy : option bool)
    (o : lead) (v : list pystr) : Prop :=
  match o with
  | LCirc c => snd (to_tle (circ_conv ex rc) rc lazy (mk_object c None)) = Ok v
  | LSso s => snd (to_tle (sso_conv ex rc sun) rc lazy (mk_object s None)) = Ok v
  | LKep k => snd (to_tle (kep_conv ex) rc lazy (mk_object k None)) = Ok v
  | LTle _ _ => False
  end.

(** A lead orbit that is a valid circle at altitude [alt] and epoch [ep]. *)
Definition circular_lead (sun : Z -> R) (o : lead) (alt inc raan nu : R) (ep : Z) : Prop :=
  match o with
  | LCirc c => circ_valid c = true /\ c = mk_circ alt nu ep inc raan
  | LSso s => sso_valid s = true /\ s_alt s = alt /\ s_nu s = nu /\ s_epoch s = ep
      /\ sso_inclination s = Some inc /\ sso_raan sun s = raan
  | _ => False
  end.

(** Readings of the lines of a circular orbit, angles up to whole turns. *)
Record circle_read (v : list pystr) (inc raan mo n : R) : Prop := {
  cr_count : get_tle_count v = 1%nat;
  cr_inc : reads (get_inclination v 0) inc (1 / 20000);
  cr_raan : reads_angle (get_raan v 0) raan (1 / 20000);
  cr_mo : reads_angle (Tle_Model.get_mean_anomaly v 0) mo (1 / 20000);
  cr_ecc : reads (get_eccentricity v 0) 0 (1 / 20000000);
  cr_no : reads (Tle_Model.get_mean_motion v 0) n (1 / 200000000)
}.
(** Read epochs within half of the printed digit and a microsecond. *)
Definition epoch_read (epoch : pystr -> pystr -> pyres Z) (v : list pystr) (ep : Z) : Prop :=
  exists t, get_epoch epoch v 0 = Ok t /\ Rabs (IZR t - IZR ep) <= 433.

(** The difference of two readings is [d] degrees up to whole turns and [tol]. *)
Definition apart (a b : pyres Q) (d tol : R) : Prop :=
  exists p q (j : Z), a = Ok p /\ b = Ok q /\ Rabs (Q2R q - Q2R p - d - 360 * IZR j) <= tol.
