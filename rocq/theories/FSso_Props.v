(** C198: inclination and node of sun-synchronous orbits in binary64. *)
From Coq Require Import ZArith Reals Bool.
From Flocq Require Import Core IEEE754.BinarySingleNaN.
From Verif Require Import Base RBase Float_Model Float_Spec FGrid_Model FGeom_Spec FGeom_Proofs2 FSso_Model FSso_Spec FSso_Proofs.
Open Scope R_scope.

(** C198: the altitudes that are accepted. *)
Theorem c198_altitudes : exists limit, Rabs (limit - (12352000 - EARTH_MEAN_RADIUS)) <= / 500000000
  /\ forall x, f_sso_altitude x = true <-> finite x /\ 0 <= val x < limit.
Proof. exact altitudes_lemma. Qed.
Print Assumptions c198_altitudes.
(** At every accepted altitude the inclination has the cosine that keeps the node with the Sun, to 1.2e-14. *)
Theorem c198_condition : forall f_power f_acos, accurate_power f_power -> computes (fun x => Rabs x <= 1) acos f_acos ->
  forall altitude, f_sso_altitude altitude = true -> finite (f_sso_inclination f_power f_acos altitude)
    /\ Rabs (cosine_of (val (f_sso_inclination f_power f_acos altitude)) - sun_cosine (val altitude)) <= 12 / 1000000000000000.
Proof. exact condition_lemma. Qed.
Print Assumptions c198_condition.
(** It is accepted by the orbits that are made from it, up to a metre below the highest altitude ... *)
Theorem c198_inclination_partial : forall f_power f_acos, accurate_power f_power -> computes (fun x => Rabs x <= 1) acos f_acos ->
  forall altitude, f_sso_altitude altitude = true -> val altitude <= 5980990 ->
  f_sso_passed f_power f_acos altitude = Ok (f_sso_inclination f_power f_acos altitude)
  /\ 90 < val (f_sso_inclination f_power f_acos altitude) < 180.
Proof. exact accepted_lemma. Qed.
Print Assumptions c198_inclination_partial.
(** ... but not at the highest. *)
Theorem c198_inclination_refuted : exists f_power f_acos altitude, accurate_power f_power /\ computes (fun x => Rabs x <= 1) acos f_acos
  /\ f_sso_altitude altitude = true /\ f_sso_passed f_power f_acos altitude = Raise ValidationError.
Proof. exact refuted_lemma. Qed.
Print Assumptions c198_inclination_refuted.
(** This is so with every library in which a power of one is one and the arc cosine of minus one is the number nearest to pi. *)
Theorem c198_highest : exists altitude, f_sso_altitude altitude = true /\ forall f_power f_acos,
  f_power (of_Z 1) (fdiv (of_Z 7) (of_Z 2)) = of_Z 1 -> f_acos (of_Z (-1)) = f_pi ->
  f_sso_inclination f_power f_acos altitude = of_Z 180 /\ f_sso_passed f_power f_acos altitude = Raise ValidationError.
Proof. exact every_library. Qed.
Print Assumptions c198_highest.
(** The node is always accepted, and where the crossing time puts it. *)
Theorem c198_node : forall sun ect ascending, angle_ok sun -> (0 <= ect < 86400000000)%Z ->
  exists n, f_sso_node_passed sun ect ascending = Ok n /\ angle_ok n
    /\ exists k : Z, Rabs (val n + 360 * IZR k - node_for (val sun) ect ascending) <= / 1000000000000.
Proof. exact node_lemma. Qed.
Print Assumptions c198_node.
(** Libraries that meet the contracts, and an orbit at 700 km with its Sun at 350 degrees. *)
Example c198_witness : accurate_power power_near /\ computes (fun x => Rabs x <= 1) acos (by_nearest 51 acos)
  /\ f_sso_altitude (of_Z 700000) = true /\ val (of_Z 700000) <= 5980990 /\ angle_ok (of_Z 350)
  /\ power_near (of_Z 1) (fdiv (of_Z 7) (of_Z 2)) = of_Z 1 /\ by_nearest 51 acos (of_Z (-1)) = f_pi.
Proof. exact witness_lemma. Qed.
