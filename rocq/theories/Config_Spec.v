(** Specification for the configuration properties. *)
From Coq Require Import String ZArith QArith List Bool.
From Verif Require Import Base Tle_Model Config_Model.
Import ListNotations.

(** Strictly positive as an extended real; NaN is not. *)
Definition positive (x : num) : Prop :=
  match x with Fin q => (0 < q)%Q | PInf => True | NInf | NaN => False end.

(** The documented bounds of the settings. *)
Definition within_bounds (c : config) : Prop :=
  (4 <= footprint_points_elliptical c)%Z /\
  (1 <= footprint_points_rectangular_side c)%Z /\
  positive (delta_position_m c) /\
  positive (delta_velocity_m_per_s c) /\
  positive (search_elevation_deg c).

(** The ten setting names. *)
Definition is_setting (s : pystr) : Prop :=
  In s (map lit ["footprint_points_elliptical"; "footprint_points_rectangular_side";
    "repeat_cycle_delta_position_m"; "repeat_cycle_delta_velocity_m_per_s";
    "repeat_cycle_search_elevation_deg"; "repeat_cycle_search_duration_days";
    "repeat_cycle_lazy_load"; "repeat_cycle_for_orbit_track";
    "repeat_cycle_for_observation_events"; "orbit_tle_lazy_load"]%string).

(** A document [RuntimeConfiguration] can be called with as keyword arguments. *)
Definition keyword_doc (v : yval) : Prop :=
  exists l, v = YMap l /\ Forall (fun kv => exists s, fst kv = YStr s) l.

(** Conversions of exactly representable integers are exact. *)
Definition int_float_ok (int_float : Z -> option num) : Prop :=
  forall n, (Z.abs n <= 2 ^ 53)%Z -> int_float n = Some (Fin (inject_Z n)).

(** [v] is the value of the last entry named [s]. *)
Definition last_entry (s : pystr) (v : yval) (l : list (yval * yval)) : Prop :=
  exists a b, l = a ++ (YStr s, v) :: b /\ forall w, ~ In (YStr s, w) b.
Definition no_entry (s : pystr) (l : list (yval * yval)) : Prop :=
  forall w, ~ In (YStr s, w) l.

(** The integer a YAML value stands for. *)
Inductive means_int (str_int : pystr -> option Z) : yval -> Z -> Prop :=
| int_int n : means_int str_int (YInt n) n
| int_yes : means_int str_int (YBool true) 1
| int_no : means_int str_int (YBool false) 0
| int_whole q n : (q == inject_Z n)%Q -> means_int str_int (YFloat (Fin q)) n
| int_str s n : str_int s = Some n -> means_int str_int (YStr s) n.
(** The number a YAML value stands for. *)
Inductive means_float (str_float : pystr -> option num) (int_float : Z -> option num) : yval -> num -> Prop :=
| float_int n x : int_float n = Some x -> means_float str_float int_float (YInt n) x
| float_yes : means_float str_float int_float (YBool true) (Fin 1)
| float_no : means_float str_float int_float (YBool false) (Fin 0)
| float_float x : means_float str_float int_float (YFloat x) x
| float_str s x : str_float s = Some x -> means_float str_float int_float (YStr s) x.
(** The truth value a YAML value stands for. *)
Inductive means_bool (str_bool : pystr -> option bool) : yval -> bool -> Prop :=
| bool_bool b : means_bool str_bool (YBool b) b
| bool_zero : means_bool str_bool (YInt 0) false
| bool_one : means_bool str_bool (YInt 1) true
| bool_zero_float q : (q == 0)%Q -> means_bool str_bool (YFloat (Fin q)) false
| bool_one_float q : (q == 1)%Q -> means_bool str_bool (YFloat (Fin q)) true
| bool_str s b : str_bool s = Some b -> means_bool str_bool (YStr s) b.
(** A setting has the value that its last entry stands for, within its bounds, or its default. *)
Definition set_to {A} (l : list (yval * yval)) (name : string) (means : yval -> A -> Prop) (bound : A -> Prop) (default x : A) : Prop :=
  (exists v, last_entry (lit name) v l /\ means v x /\ bound x) \/ (no_entry (lit name) l /\ x = default).
(** The configuration that a mapping describes. *)
Definition describes si sf sb jf (l : list (yval * yval)) (c : config) : Prop :=
  set_to l "footprint_points_elliptical" (means_int si) (fun n => 4 <= n)%Z 32%Z (footprint_points_elliptical c) /\
  set_to l "footprint_points_rectangular_side" (means_int si) (fun n => 1 <= n)%Z 8%Z (footprint_points_rectangular_side c) /\
  set_to l "repeat_cycle_delta_position_m" (means_float sf jf) positive (Fin 10000) (delta_position_m c) /\
  set_to l "repeat_cycle_delta_velocity_m_per_s" (means_float sf jf) positive (Fin 10) (delta_velocity_m_per_s c) /\
  set_to l "repeat_cycle_search_elevation_deg" (means_float sf jf) positive (Fin 88) (search_elevation_deg c) /\
  set_to l "repeat_cycle_search_duration_days" (means_float sf jf) (fun _ => True) (Fin 30) (search_duration_days c) /\
  set_to l "repeat_cycle_lazy_load" (means_bool sb) (fun _ => True) true (repeat_lazy_load c) /\
  set_to l "repeat_cycle_for_orbit_track" (means_bool sb) (fun _ => True) true (repeat_for_orbit_track c) /\
  set_to l "repeat_cycle_for_observation_events" (means_bool sb) (fun _ => True) true (repeat_for_observation_events c) /\
  set_to l "orbit_tle_lazy_load" (means_bool sb) (fun _ => True) true (orbit_tle_lazy_load c).
