(** Property theorems C162: the constants of the ellipsoid. *)
From Coq Require Import Reals ZArith List Lra.
From Verif Require Import Base RBase Grid_Model Area_Spec Area_Proofs.
Open Scope R_scope.

(** *** C162 *)
(** The integrand of the specification is the area of the rings of the ellipsoid's profile. *)
Theorem c162_ring : forall a b z, 0 < b -> - b < z < b -> 0 < a -> exists d,
  derivable_pt_lim (profile a b) z d /\ ring a b z = 2 * PI * profile a b z * sqrt (1 + d ^ 2).
Proof. exact ring_lemma. Qed.
Print Assumptions c162_ring.

(** The surface area used for sample counts is that of the WGS 84 ellipsoid within a square metre. *)
Theorem c162_surface_area :
  let polar := EARTH_EQUATORIAL_RADIUS * (1 - EARTH_FLATTENING) in
  (exists S, surface_area EARTH_EQUATORIAL_RADIUS polar S)
  /\ forall S, surface_area EARTH_EQUATORIAL_RADIUS polar S -> Rabs (EARTH_SURFACE_AREA - S) < 1.
Proof. exact area_all. Qed.
Print Assumptions c162_surface_area.

Theorem c162_radii :
  Rabs (EARTH_POLAR_RADIUS - EARTH_EQUATORIAL_RADIUS * (1 - EARTH_FLATTENING)) < 1 / 10 ^ 9
  /\ 0 < EARTH_ECCENTRICITY < 1
  /\ EARTH_EQUATORIAL_RADIUS ^ 2 * (1 - EARTH_ECCENTRICITY ^ 2) = (EARTH_EQUATORIAL_RADIUS * (1 - EARTH_FLATTENING)) ^ 2
  /\ EARTH_POLAR_RADIUS < EARTH_MEAN_RADIUS < EARTH_EQUATORIAL_RADIUS.
Proof. exact (conj polar_radius_lemma (conj (proj1 eccentricity_lemma) (conj (proj2 eccentricity_lemma) (proj2 mean_radius_lemma)))). Qed.
Print Assumptions c162_radii.

(** The sphere of mean radius is larger, by less than a millionth. *)
Theorem c162_mean_sphere : EARTH_SURFACE_AREA < 4 * PI * EARTH_MEAN_RADIUS ^ 2 < EARTH_SURFACE_AREA * (1 + 1 / 10 ^ 6).
Proof. exact mean_sphere_lemma. Qed.
Print Assumptions c162_mean_sphere.

(** Hence the count is the number of caps that fit the true surface. *)
Theorem c162_count : forall d S, 0 < d <= 2 * PI * EARTH_MEAN_RADIUS ->
  surface_area EARTH_EQUATORIAL_RADIUS (EARTH_EQUATORIAL_RADIUS * (1 - EARTH_FLATTENING)) S ->
  exists n, compute_number_samples d = Ok n /\ (0 <= n)%Z
    /\ IZR n * (2 * PI * EARTH_MEAN_RADIUS ^ 2 * (1 - cos (d / EARTH_MEAN_RADIUS / 2))) < S + 1
    /\ S - 1 < (IZR n + 1) * (2 * PI * EARTH_MEAN_RADIUS ^ 2 * (1 - cos (d / EARTH_MEAN_RADIUS / 2))).
Proof. exact count_lemma. Qed.
Print Assumptions c162_count.

(** A lattice asked for with the whole circumference as its distance is empty. *)
Theorem c162_whole_globe : forall clip, compute_number_samples (2 * PI * EARTH_MEAN_RADIUS) = Ok 0%Z
  /\ generate_fibonacci_lattice_points clip (2 * PI * EARTH_MEAN_RADIUS) None = Ok nil.
Proof. exact whole_globe_lemma. Qed.
Print Assumptions c162_whole_globe.

Example c162_witness : 0 < 1000 <= 2 * PI * EARTH_MEAN_RADIUS /\ 0 < 2 /\ - (2) < 1 < 2
  /\ exists S, surface_area EARTH_EQUATORIAL_RADIUS (EARTH_EQUATORIAL_RADIUS * (1 - EARTH_FLATTENING)) S.
Proof.
  repeat split; try lra; [|exact (proj1 area_all)]. pose proof PI2_3_2. unfold PI2 in *.
  unfold EARTH_MEAN_RADIUS, EARTH_EQUATORIAL_RADIUS, EARTH_POLAR_RADIUS. lra.
Qed.
