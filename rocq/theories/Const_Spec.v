(** Specification vocabulary for constellations. *)
From Coq Require Import Reals ZArith List.
From Verif Require Import Base RBase Orbit_Model Orbit_Spec Const_Model.
Import ListNotations.
Open Scope Z_scope.

(** Python's order on strings. *)
Inductive str_lt : list Z -> list Z -> Prop :=
| lt_nil c r : str_lt [] (c :: r)
| lt_head a b r s : a < b -> str_lt (a :: r) (b :: s)
| lt_tail a r s : str_lt r s -> str_lt (a :: r) (a :: s).
(** The number written by a string of decimal digits. *)
Definition decimal_value (s : list Z) : Z := fold_left (fun v c => 10 * v + (c - 48)) s 0.

Open Scope R_scope.
(** Lead orbits that the schemas accept (Keplerian: bound orbits, e <= 1). *)
Definition lead_ok (o : lead) : Prop :=
  match o with
  | LCirc c => circ_valid c = true
  | LSso s => sso_valid s = true
  | LKep k => kep_valid k = true /\ k_ecc k <= 1
  | LTle _ l => l <> []
  end.

(** [o'] is the orbit [o] with the mean anomaly advanced by [a] and the node by [b] degrees,
    and nothing else changed. *)
Definition advanced (sun : Z -> R) (a b : R) (o o' : lead) : Prop :=
  match o, o' with
  | LCirc c, LCirc c' =>
      c_alt c' = c_alt c /\ c_epoch c' = c_epoch c /\ c_inc c' = c_inc c
      /\ same_degrees (circ_mean_anomaly c') (circ_mean_anomaly c + a) /\ same_degrees (c_raan c') (c_raan c + b)
  | LSso s, LCirc c' =>
      c_alt c' = s_alt s /\ c_epoch c' = s_epoch s /\ sso_inclination s = Some (c_inc c')
      /\ same_degrees (circ_mean_anomaly c') (s_nu s + a) /\ same_degrees (c_raan c') (sso_raan sun s + b)
  | LKep k, LKep k' =>
      c_alt (k_circ k') = c_alt (k_circ k) /\ c_epoch (k_circ k') = c_epoch (k_circ k)
      /\ c_inc (k_circ k') = c_inc (k_circ k) /\ k_ecc k' = k_ecc k /\ k_argp k' = k_argp k
      /\ same_degrees (c_nu (k_circ k')) (mean_anomaly_to_true_anomaly (kep_mean_anomaly k + a) (k_ecc k))
      /\ same_degrees (c_raan (k_circ k')) (c_raan (k_circ k) + b)
  | LTle n l, LTle n' l' => n' = n /\
      Forall2 (fun s s' => e_epoch s' = e_epoch s /\ e_ecc s' = e_ecc s /\ e_argp s' = e_argp s
        /\ e_inc s' = e_inc s /\ e_no s' = e_no s /\ e_bstar s' = e_bstar s
        /\ same_radians (e_mo s') (e_mo s + a * (PI / 180)) /\ same_radians (e_node s') (e_node s + b * (PI / 180))) l l'
  | _, _ => False
  end.

(** Two orbits of the same family put their satellites at the same place in the same plane. *)
Definition coincide (o o' : lead) : Prop :=
  match o, o' with
  | LCirc c, LCirc c' => same_degrees (circ_mean_anomaly c) (circ_mean_anomaly c') /\ same_degrees (c_raan c) (c_raan c')
  | LKep k, LKep k' => same_degrees (c_nu (k_circ k)) (c_nu (k_circ k')) /\ same_degrees (c_raan (k_circ k)) (c_raan (k_circ k'))
  | LTle _ l, LTle _ l' => Forall2 (fun s s' => same_radians (e_mo s) (e_mo s') /\ same_radians (e_node s) (e_node s')) l l'
  | _, _ => False
  end.
(** Node of the first (or only) element set, in degrees. *)
Definition node_of (o : lead) : option R :=
  match o with
  | LCirc c => Some (c_raan c)
  | LKep k => Some (c_raan (k_circ k))
  | LTle _ (s :: _) => Some (e_node s * (180 / PI))
  | _ => None
  end.

(** The members lie in exactly [k] planes (nodes counted modulo 360 degrees). *)
Definition plane_count (nodes : list R) (k : nat) : Prop :=
  exists reps, length reps = k
    /\ (forall i j x y, (i < j)%nat -> nth_error reps i = Some x -> nth_error reps j = Some y -> ~ same_degrees x y)
    /\ (forall x, In x nodes -> exists r, In r reps /\ same_degrees x r)
    /\ (forall r, In r reps -> exists x, In x nodes /\ same_degrees x r).

(** Walker parameters T/P/F that make sense. *)
Definition walker_ok {I} (w : @walker I) : Prop :=
  (1 <= w_planes w <= w_number w /\ 0 <= w_spacing w < w_planes w)%Z.

(** Node of the lead orbit, in degrees. *)
Definition base_node (sun : Z -> R) (o : lead) : R :=
  match o with LCirc c => c_raan c | LSso s => sso_raan sun s | LKep k => c_raan (k_circ k)
  | LTle _ (s :: _) => e_node s * (180 / PI) | LTle _ [] => 0 end.

(** Eccentricities for which the mean-to-true series is injective. *)
Definition injective_ok (o : lead) : Prop := match o with LKep k => k_ecc k <= 1 / 2 | _ => True end.

(** Altitude and epoch of an orbit (two-line elements have no such fields). *)
Definition altitude_epoch (o : lead) : option (R * Z) :=
  match o with LCirc c => Some (c_alt c, c_epoch c) | LSso s => Some (s_alt s, s_epoch s)
  | LKep k => Some (c_alt (k_circ k), c_epoch (k_circ k)) | LTle _ _ => None end.

(** Earth-fixed longitude of a node at a time [t] (seconds), up to a constant. *)
Definition earth_fixed (node t : R) : R := node - 360 * (t / EARTH_SIDEREAL_DAY_S).
