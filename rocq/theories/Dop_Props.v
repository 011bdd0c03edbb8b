(** Properties of dilution of precision: C97-C100, C121-C124. *)
From Coq Require Import Reals ZArith List Bool Lra Lia Sorting.Permutation.
From Verif Require Import Base RBase Dop_Model Dop_Spec Dop_Proofs Dop_Proofs2 Dop_Proofs3.
Import ListNotations.
Open Scope R_scope.

(** The contract of the solver is satisfiable. *)
Example dop_solver_witness : solver cramer.
Proof. exact cramer_solver. Qed.
(** Four satellites overhead, north, east and south on the horizon: GDOP 2. *)
Example dop_sky_witness : seen_of 0 four_sky four_sky /\ apart four_sky /\ inverse (normal four_sky) four_inverse /\ dop cramer 0 GDOP 3 four_sky = Ok (Some 2).
Proof.
  split; [exact four_seen|]. split; [exact four_apart|]. split; [exact four_inverse_ok|]. apply four_gdop; [exact cramer_solver|reflexivity].
Qed.

(** *** C97 *)
Theorem c97_identities : forall solve, solver solve -> forall me mn all l g, seen_of me all l -> apart l -> dop solve me GDOP mn all = Ok (Some g) ->
  exists p h v t, dop solve me PDOP mn all = Ok (Some p) /\ dop solve me HDOP mn all = Ok (Some h) /\ dop solve me VDOP mn all = Ok (Some v)
    /\ dop solve me TDOP mn all = Ok (Some t) /\ 0 < p /\ 0 < h /\ 0 < v /\ 0 < t /\ 0 < g
    /\ g ^ 2 = p ^ 2 + t ^ 2 /\ p ^ 2 = h ^ 2 + v ^ 2.
Proof. exact dop_identities. Qed.
Print Assumptions c97_identities.

(** *** C98 *)
Theorem c98_order : forall solve, solver solve -> forall me m mn all all', Permutation all all' -> apart all -> dop solve me m mn all = dop solve me m mn all'.
Proof. exact dop_perm. Qed.
Print Assumptions c98_order.
Theorem c98_more_satellites : forall solve, solver solve -> forall me m mn all s d, apart (s :: all) -> in_view me s -> dop solve me m mn all = Ok (Some d) ->
  exists d', dop solve me m mn (s :: all) = Ok (Some d') /\ d' <= d.
Proof. exact dop_more. Qed.
Print Assumptions c98_more_satellites.
Theorem c98_hidden_satellite : forall solve me m mn all s, ~ in_view me s -> dop solve me m mn (s :: all) = dop solve me m mn all.
Proof. exact dop_hidden. Qed.
Print Assumptions c98_hidden_satellite.
(** A satellite at 60 degrees is seen over four that already give a position; one below the horizon is not. *)
Example c98_witness : apart (mk_sight (PI / 3) 1 1 :: four_sky) /\ in_view 0 (mk_sight (PI / 3) 1 1) /\ ~ in_view 0 (mk_sight (- PI / 3) 1 1)
  /\ dop cramer 0 GDOP 3 four_sky = Ok (Some 2).
Proof.
  pose proof PI_RGT_0. assert (Z : radians 0 = 0) by (unfold radians; lra). split; [intros s [<-|I]; [cbn; lra|exact (four_apart s I)]|].
  unfold in_view. rewrite Z. cbn [s_el]. split; [lra|]. split; [lra|]. apply four_gdop; [exact cramer_solver|reflexivity].
Qed.

(** *** C99 *)
(** The values are those of the inverse of the normal matrix. *)
Theorem c99_value : forall solve, solver solve -> forall me m mn all l X, seen_of me all l -> apart l -> (mn < Z.of_nat (length l))%Z -> inverse (normal l) X -> m <> Invalid ->
  dop solve me m mn all = Ok (Some (sqrt (part m X))).
Proof. exact dop_value. Qed.
Print Assumptions c99_value.
(** A value needs strictly more than min_count_visible satellites in view. *)
Theorem c99_threshold_partial : forall solve, solver solve -> forall me m mn all l, seen_of me all l -> apart l -> m <> Invalid ->
  ((exists d, dop solve me m mn all = Ok (Some d)) <-> (mn < Z.of_nat (length l))%Z /\ exists X, inverse (normal l) X).
Proof. exact dop_defined_iff. Qed.
Print Assumptions c99_threshold_partial.
Theorem c99_otherwise_nan_partial : forall solve, solver solve -> forall me m mn all l, seen_of me all l -> apart l -> m <> Invalid ->
  (Z.of_nat (length l) <= mn)%Z \/ (forall X, ~ inverse (normal l) X) -> dop solve me m mn all = Ok None.
Proof. exact dop_undefined. Qed.
Print Assumptions c99_otherwise_nan_partial.
(** With exactly min_count_visible satellites in view and a regular geometry the result is NaN. *)
Theorem c99_threshold_refuted : exists solve me m mn all l X, solver solve /\ seen_of me all l /\ apart l /\ m <> Invalid
  /\ Z.of_nat (length l) = mn /\ inverse (normal l) X /\ dop solve me m mn all = Ok None.
Proof. exact threshold_wrong. Qed.
Print Assumptions c99_threshold_refuted.

(** *** C100 *)
Theorem c100_geometry_partial : forall solve Sat (sky : Sat -> Z -> sight) times lat lon sats me m mn rows r,
  compute_dop solve sky times lat lon sats me m mn = Ok rows -> In r rows -> d_geom r = (lon, lat) <-> lat = lon.
Proof. exact dop_geometry_iff. Qed.
Print Assumptions c100_geometry_partial.
Theorem c100_geometry_refuted : exists solve (sky : nat -> Z -> sight) times lat lon sats me m mn rows r, solver solve
  /\ compute_dop solve sky times lat lon sats me m mn = Ok rows /\ In r rows /\ d_geom r <> (lon, lat).
Proof. exact dop_geometry_wrong. Qed.
Print Assumptions c100_geometry_refuted.

(** *** C121 *)
Theorem c121_four_needed : forall solve, solver solve -> forall me m mn all l, seen_of me all l -> apart l -> (length l < 4)%nat -> dop solve me m mn all = Ok None.
Proof. exact dop_four. Qed.
Print Assumptions c121_four_needed.
Example c121_witness : exists l, seen_of 0 (firstn 3 four_sky) l /\ apart l /\ (length l < 4)%nat.
Proof.
  exists (firstn 3 four_sky). split.
  - pose proof PI_RGT_0. assert (Z : radians 0 = 0) by (unfold radians; lra). repeat (apply seen_yes; [unfold in_view; cbn; lra|]). constructor.
  - split; [intros s I; apply four_apart; cbn in *; tauto|cbn; lia].
Qed.

(** *** C122 *)
Theorem c122_bounds : forall solve, solver solve -> forall me m mn all l d, seen_of me all l -> apart l -> dop solve me m mn all = Ok (Some d) ->
  0 < d /\ components m ^ 2 <= d ^ 2 * (weight m * INR (length l)).
Proof. exact dop_bounds. Qed.
Print Assumptions c122_bounds.

(** *** C123 *)
Theorem c123_turned : forall solve me m mn all a, solver solve -> apart all -> dop solve me m mn (map (turned a) all) = dop solve me m mn all.
Proof. exact dop_turned. Qed.
Print Assumptions c123_turned.
Theorem c123_range : forall solve me m mn all all', solver solve -> apart all -> apart all' ->
  Forall2 (fun s t => s_el s = s_el t /\ s_az s = s_az t) all all' -> dop solve me m mn all = dop solve me m mn all'.
Proof. exact dop_range. Qed.
Print Assumptions c123_range.
(** The same sky at twice the distance. *)
Example c123_witness : let far := map (fun s => mk_sight (s_el s) (s_az s) 2) four_sky in
  apart four_sky /\ apart far /\ Forall2 (fun s t => s_el s = s_el t /\ s_az s = s_az t) four_sky far /\ four_sky <> far.
Proof.
  cbv zeta. split; [exact four_apart|]. split; [intros s S; apply in_map_iff in S as (t & <- & _); cbn; lra|].
  split; [repeat constructor|]. unfold four_sky. cbn. intro E. injection E. intros. lra.
Qed.

(** *** C124 *)
Theorem c124_rows : forall solve Sat (sky : Sat -> Z -> sight) times lat lon sats me m mn rows,
  compute_dop solve sky times lat lon sats me m mn = Ok rows ->
  Forall2 (fun t r => d_time r = t /\ d_geom r = (lat, lon) /\ dop solve me m mn (map (fun s => sky s t) sats) = Ok (d_dop r)) times rows.
Proof. exact dop_rows_lemma. Qed.
Print Assumptions c124_rows.
Theorem c124_total_partial : forall solve Sat (sky : Sat -> Z -> sight) times lat lon sats me m mn, sats <> [] -> m <> Invalid ->
  exists rows, compute_dop solve sky times lat lon sats me m mn = Ok rows.
Proof. exact dop_total_lemma. Qed.
Print Assumptions c124_total_partial.
Theorem c124_no_satellites : forall solve Sat (sky : Sat -> Z -> sight) times lat lon me m mn, times <> [] ->
  compute_dop solve sky times lat lon [] me m mn = Raise IndexError.
Proof. exact dop_no_satellites. Qed.
Print Assumptions c124_no_satellites.
Theorem c124_total_refuted : exists times : list Z, times <> [] /\ forall solve (sky : sight -> Z -> sight) lat lon me m mn,
  compute_dop solve sky times lat lon [] me m mn = Raise IndexError.
Proof. exact dop_no_satellites_ex. Qed.
Print Assumptions c124_total_refuted.
Example c124_witness : exists rows, compute_dop cramer (fun s (_ : Z) => s) [1; 2]%Z 40 (-75) four_sky 0 GDOP 3 = Ok rows /\ length rows = 2%nat.
Proof.
  destruct (dop_total_lemma cramer sight (fun s _ => s) [1; 2]%Z 40 (-75) four_sky 0 GDOP 3) as [rows E]; [discriminate|discriminate|].
  exists rows. split; [exact E|]. pose proof (dop_rows_lemma _ _ _ _ _ _ _ _ _ _ _ E) as F. symmetry. exact (Forall2_len _ _ _ F).
Qed.
