(** C192, C193: anomalies in binary64. *)
From Coq Require Import ZArith Reals Bool.
From Flocq Require Import Core IEEE754.BinarySingleNaN.
From Verif Require Import Base RBase Float_Model Float_Spec FGrid_Model FGeom_Spec FGeom_Proofs2 FAnom_Model FAnom_Spec FAnom_Proofs3 FAnom_Proofs4.
Open Scope R_scope.

(** C192.  Both conversions compute the series of the documentation to 2e-11 degrees, for every closed orbit. *)
Theorem c192_mean_to_true : forall f_sin f_pow m e, series_libm f_sin f_pow -> finite m -> 0 <= val m <= 360 -> closed e ->
  close (f_mean_to_true f_sin f_pow m e) (true_of (val m) (val e)) (2 / 100000000000).
Proof. exact c192_true_lemma. Qed.
Print Assumptions c192_mean_to_true.
Theorem c192_true_to_mean : forall f_sin f_pow nu e, series_libm f_sin f_pow -> finite nu -> 0 <= val nu <= 360 -> closed e ->
  close (f_true_to_mean f_sin f_pow nu e) (mean_of (val nu) (val e)) (2 / 100000000000).
Proof. exact c192_mean_lemma. Qed.
Print Assumptions c192_true_to_mean.
(** A library that meets the contract, and apogee of an orbit of eccentricity one half. *)
Example c192_witness : series_libm (by_nearest 52 sin) mul_pow /\ closed half /\ finite (of_Z 180) /\ 0 <= val (of_Z 180) <= 360
  /\ true_of (val (of_Z 180)) (val half) = 180.
Proof. exact c192_witness_lemma. Qed.

(** C193.  The true anomaly of a derived orbit of any eccentricity is accepted and right, except within 1e-10 degrees
    of a whole turn (missing). *)
Theorem c193_keplerian_partial : forall f_sin f_pow nu e dm r, series_libm f_sin f_pow -> angle_ok nu -> closed e -> moderate dm ->
  turn_of (mean_of (val nu) (val e) + val dm) r -> / 10000000000 <= r <= 360 - / 10000000000 ->
  exists f, f_derived_anomaly f_sin f_pow nu e dm = Ok f /\ angle_ok f /\ Rabs (val f - true_of r (val e)) <= / 1000000000.
Proof. exact c193_keplerian_lemma. Qed.
Print Assumptions c193_keplerian_partial.
(** Without a change, the anomaly stays the same up to the error of the series. *)
Theorem c193_unchanged_partial : forall f_sin f_pow nu e, series_libm f_sin f_pow -> angle_ok nu -> closed e ->
  / 10000000000 <= mean_of (val nu) (val e) <= 360 - / 10000000000 ->
  exists f, f_derived_anomaly f_sin f_pow nu e (of_Z 0) = Ok f /\ angle_ok f
    /\ Rabs (val f - val nu) <= 110 * val e ^ 4 * (180 / PI) + / 1000000000.
Proof. exact c193_unchanged_lemma. Qed.
Print Assumptions c193_unchanged_partial.
(** Circular orbits: accepted exactly when the remainder of the rounded sum is below 360 - 2^-45 degrees. *)
Theorem c193_circular_exact : forall f_sin f_pow nu dm r, series_libm f_sin f_pow -> angle_ok nu -> finite dm ->
  turn_of (rnd (val (f_true_to_mean f_sin f_pow nu (of_Z 0)) + val dm)) r ->
  ((exists f, f_derived_anomaly f_sin f_pow nu (of_Z 0) dm = Ok f) <-> r < 360 - / IZR (2 ^ 45))
  /\ (forall f, f_derived_anomaly f_sin f_pow nu (of_Z 0) dm = Ok f -> angle_ok f)
  /\ (forall e, f_derived_anomaly f_sin f_pow nu (of_Z 0) dm = Raise e -> e = ValidationError).
Proof. exact c193_exact_lemma. Qed.
Print Assumptions c193_circular_exact.
(** Circular orbits moved forwards are always accepted. *)
Theorem c193_circular_forward : forall f_sin f_pow nu dm, series_libm f_sin f_pow -> angle_ok nu -> finite dm -> 0 <= val dm ->
  exists f, f_derived_anomaly f_sin f_pow nu (of_Z 0) dm = Ok f /\ angle_ok f.
Proof. exact c193_forward_lemma. Qed.
Print Assumptions c193_circular_forward.
(** An accepted circular orbit has moved by the change, up to whole turns. *)
Theorem c193_circular_near : forall f_sin f_pow nu dm f, series_libm f_sin f_pow -> angle_ok nu -> moderate dm ->
  f_derived_anomaly f_sin f_pow nu (of_Z 0) dm = Ok f ->
  exists k : Z, Rabs (val f - (val nu + val dm - 360 * IZR k)) <= / 10000000000.
Proof. exact c193_near_lemma. Qed.
Print Assumptions c193_circular_near.
(** Every member of a Walker constellation of circular orbits is accepted and in its place. *)
Theorem c193_walker : forall f_sin f_pow n p f i nu, series_libm f_sin f_pow ->
  (1 <= p <= n)%Z -> (n <= 2 ^ 20)%Z -> (0 <= f < p)%Z -> (0 <= i < n)%Z -> angle_ok nu ->
  exists g, f_walker_anomaly f_sin f_pow n p f i nu (of_Z 0) = Ok g /\ angle_ok g
    /\ ((p <= 90)%Z -> forall s, (p * (s - 1) < n <= p * s)%Z ->
        exists k : Z, Rabs (val g - (val nu + walker_phase s n f i - 360 * IZR k)) <= 2 / 10000000000).
Proof. exact c193_walker_lemma. Qed.
Print Assumptions c193_walker.
(** False of trains, whose members are moved backwards: under every such library a follower's valid true anomaly is
    rejected. *)
Theorem c193_train_refuted : forall f_sin f_pow, series_libm f_sin f_pow ->
  exists altitude interval i nu, finite altitude /\ (0 < interval)%Z /\ (0 < i)%Z /\ angle_ok nu
    /\ f_train_anomaly f_sin f_pow altitude interval i nu = Raise ValidationError.
Proof. exact c193_train_lemma. Qed.
Print Assumptions c193_train_refuted.
(** The contract is met; an eccentric orbit moved from apogee back by 90 degrees, and a sum below zero. *)
Example c193_witness : series_libm (by_nearest 52 sin) mul_pow /\ angle_ok (of_Z 180) /\ closed half /\ moderate (of_Z (-90))
  /\ turn_of (mean_of (val (of_Z 180)) (val half) + val (of_Z (-90))) 90 /\ turn_of (rnd (val (of_Z 10) + val (of_Z (-20)))) 350
  /\ mean_of (val (of_Z 180)) (val half) = 180.
Proof. exact c193_witness_lemma. Qed.
