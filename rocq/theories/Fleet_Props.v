(** Property theorems C163: two-line elements of constellation members. *)
From Coq Require Import String Reals ZArith QArith Qreals List Bool Lra Lia.
From Verif Require Import Base RBase Tle_Model Orbit_Model Orbit_Spec Const_Model Const_Spec Export_Model Export_Spec
  Export_Witness Export_Proofs4 Export_Props Fleet_Spec Fleet_Proofs.
Import ListNotations.
Open Scope R_scope.

(** *** C163 *)
(** The lines of every member of a Walker constellation show its slot and plane. *)
Theorem c163_walker_circular_partial : forall epoch export_tle, printer_contract export_tle -> epoch_contract epoch export_tle ->
  forall rc lazy sun I (w : @walker I) alt inc raan nu ep,
  circular_lead sun (w_orbit w) alt inc raan nu ep -> 0 <= alt -> in_window ep -> walker_ok w ->
  exists ms k n, walker_members sun w = Ok ms /\ Z.of_nat (length ms) = w_number w
    /\ ((k - 1) * w_planes w < w_number w <= k * w_planes w)%Z /\ Orbit_Model.get_mean_motion alt = Ok n
    /\ forall i m, nth_error ms i = Some m -> exists p s v, Z.of_nat i = (p * k + s)%Z /\ (0 <= s < k)%Z /\ (0 <= p < w_planes w)%Z
         /\ converts (new_tle epoch export_tle) sun rc lazy (mb_orbit m) v /\ epoch_read epoch v ep
         /\ circle_read v inc (raan + IZR p * ((match w_config w with Delta => 360 | Star => 180 end) / IZR (w_planes w)))
              (nu + (IZR s * (360 / IZR k) + IZR p * (360 * IZR (w_spacing w) / IZR (w_number w)))) n.
Proof. exact walker_tle_lemma. Qed.
Print Assumptions c163_walker_circular_partial.

(** Hence the lines of any two members are as far apart as the pattern says, to a ten-thousandth of a degree. *)
Theorem c163_walker_apart_partial : forall epoch export_tle, printer_contract export_tle -> epoch_contract epoch export_tle ->
  forall rc lazy sun I (w : @walker I) alt inc raan nu ep ms k i j m m' v v',
  circular_lead sun (w_orbit w) alt inc raan nu ep -> 0 <= alt -> in_window ep -> walker_ok w ->
  walker_members sun w = Ok ms -> ((k - 1) * w_planes w < w_number w <= k * w_planes w)%Z ->
  nth_error ms i = Some m -> nth_error ms j = Some m' ->
  converts (new_tle epoch export_tle) sun rc lazy (mb_orbit m) v -> converts (new_tle epoch export_tle) sun rc lazy (mb_orbit m') v' ->
  let p := (Z.of_nat i / k)%Z in let p' := (Z.of_nat j / k)%Z in
  let s := (Z.of_nat i mod k)%Z in let s' := (Z.of_nat j mod k)%Z in
  apart (get_raan v 0) (get_raan v' 0) (IZR (p' - p) * ((match w_config w with Delta => 360 | Star => 180 end) / IZR (w_planes w))) (1 / 10000)
  /\ apart (Tle_Model.get_mean_anomaly v 0) (Tle_Model.get_mean_anomaly v' 0)
       (IZR (s' - s) * (360 / IZR k) + IZR (p' - p) * (360 * IZR (w_spacing w) / IZR (w_number w))) (1 / 10000).
Proof. exact walker_apart_lemma. Qed.
Print Assumptions c163_walker_apart_partial.

Theorem c163_train_circular_partial : forall epoch export_tle, printer_contract export_tle -> epoch_contract epoch export_tle ->
  forall rc lazy sun I (t : @train I) alt inc raan nu ep,
  circular_lead sun (tr_orbit t) alt inc raan nu ep -> 0 <= alt -> in_window ep ->
  exists ms n, train_members sun t = Ok ms /\ length ms = tr_number t /\ Orbit_Model.get_mean_motion alt = Ok n
    /\ forall i m, nth_error ms i = Some m -> exists v,
         converts (new_tle epoch export_tle) sun rc lazy (mb_orbit m) v /\ epoch_read epoch v ep
         /\ circle_read v inc (raan + (if tr_repeat t then INR i * (360 * (IZR (tr_interval t) / 86400000000)) else 0))
              (nu - INR i * (360 * n * (IZR (tr_interval t) / 86400000000))) n.
Proof. exact train_tle_lemma. Qed.
Print Assumptions c163_train_circular_partial.

Theorem c163_walker_keplerian_partial : forall epoch export_tle, printer_contract export_tle -> epoch_contract epoch export_tle ->
  forall rc lazy sun I (w : @walker I) k0,
  w_orbit w = LKep k0 -> kep_valid k0 = true -> k_ecc k0 <= 77 / 100 -> 0 <= c_alt (k_circ k0) -> in_window (c_epoch (k_circ k0)) -> walker_ok w ->
  exists ms k n, walker_members sun w = Ok ms /\ Z.of_nat (length ms) = w_number w
    /\ ((k - 1) * w_planes w < w_number w <= k * w_planes w)%Z /\ Orbit_Model.get_mean_motion (c_alt (k_circ k0)) = Ok n
    /\ forall i m, nth_error ms i = Some m -> exists p s v nu raan, Z.of_nat i = (p * k + s)%Z /\ (0 <= s < k)%Z /\ (0 <= p < w_planes w)%Z
         /\ converts (new_tle epoch export_tle) sun rc lazy (mb_orbit m) v /\ epoch_read epoch v (c_epoch (k_circ k0))
         /\ reads_orbit v (c_inc (k_circ k0)) raan (k_argp k0) (k_ecc k0) (true_anomaly_to_mean_anomaly nu (k_ecc k0)) n
         /\ same_degrees raan (c_raan (k_circ k0) + IZR p * ((match w_config w with Delta => 360 | Star => 180 end) / IZR (w_planes w)))
         /\ same_degrees nu (mean_anomaly_to_true_anomaly (kep_mean_anomaly k0
              + (IZR s * (360 / IZR k) + IZR p * (360 * IZR (w_spacing w) / IZR (w_number w)))) (k_ecc k0)).
Proof. exact walker_kep_lemma. Qed.
Print Assumptions c163_walker_keplerian_partial.

(** Missing: lead orbits below the surface, for which no member converts. *)
Theorem c163_below_surface_refuted : forall sun, exists (w : @walker Z) ms m,
  make_walker w = Ok w /\ lead_ok (w_orbit w) /\ walker_members sun w = Ok ms /\ nth_error ms 0 = Some m
  /\ forall ex rc lazy v, ~ converts ex sun rc lazy (mb_orbit m) v.
Proof. exact below_surface_lemma. Qed.
Print Assumptions c163_below_surface_refuted.

Example c163_witness : printer_contract witness_printer /\ epoch_contract witness_epoch witness_printer
  /\ (forall sun, circular_lead sun (w_orbit walker_w) 600000 98 30 200 (26084 * 86400000000))
  /\ (forall sun, exists inc, circular_lead sun (w_orbit walker_s) 600000 inc (sso_raan sun sso_example) 200 (26084 * 86400000000))
  /\ (forall sun, circular_lead sun (tr_orbit train_w) 600000 98 30 200 (26084 * 86400000000))
  /\ 0 <= 600000 /\ in_window (26084 * 86400000000) /\ walker_ok walker_w /\ walker_ok walker_s /\ walker_ok walker_k
  /\ w_orbit walker_k = LKep kep_example
  /\ (kep_valid kep_example = true /\ 0 <= c_alt (k_circ kep_example) /\ k_ecc kep_example <= 77 / 100 /\ in_window (c_epoch (k_circ kep_example))).
Proof. exact fleet_witness_lemma. Qed.
