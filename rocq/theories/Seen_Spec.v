(** Specification vocabulary for the conditions reported with observations. *)
From Coq Require Import String Reals ZArith List Bool.
From Verif Require Import Base Instr_Model Coverage_Model Coverage_Spec Epoch_Model Seen_Model Whole_Spec.
Import ListNotations.
Open Scope Z_scope.

(** The conditions of a row are those of its own epoch, the satellite being where get_orbit_track has it at that time alone. *)
Definition own_conditions (o : source) (sat_seen : nat * Z -> Z -> R * R) (sunlit : nat * Z -> Z -> bool) (sun_seen : Z -> R * R)
    (hour_angle : Z -> R) (r : seen) : Prop :=
  let t := o_epoch (s_obs r) in
  exists st, orbit_track (so_epochs o) (so_repeat_track o) (so_cycle o) [t] = [st]
    /\ s_sat r = sat_seen st t /\ (s_sun r = None \/ s_sun r = Some (sunlit st t, sun_seen t, (hour_angle t + 12)%R)).
(** What a row with solar columns reports meets the requirements of the instrument. *)
Definition meets (q : requirement) (r : seen) : Prop :=
  match s_sun r with
  | None => True
  | Some (lit, (alt, _), _) => (forall b, req_self q = Some b -> lit = b) /\ (forall b, req_target q = Some b -> ((0 < alt)%R <-> b = true))
  end.
(** The events tell when the altitude [alt] of the satellite is at least [theta]: whenever they have the satellite in view
    immediately afterwards. *)
Definition tells (start end_ maxacc : Z) (theta : R) (alt : Z -> R) (ev : events) : Prop :=
  exists b, sky start end_ maxacc b ev /\ forall t, start <= t < end_ -> above b ev (t + 1) = true -> (theta <= alt t)%R.
(** Events a time [d] later. *)
Definition later (d : Z) (ev : events) : events := map (fun x => (fst x + d, snd x)) ev.
(** The events of one repeat cycle of length [c] tell the altitude, and can be followed by those of the next cycle. *)
Definition cycle_tells (start c maxacc : Z) (theta : R) (alt : Z -> R) (ev : events) : Prop :=
  exists b, sky start (start + 2 * c) maxacc b (ev ++ later c ev) /\ in_window start (start + c) ev
  /\ forall t, start <= t < start + c -> above b ev (t + 1) = true -> (theta <= alt t)%R.
(** The row without the solar columns. *)
Definition without_sun (r : seen) : seen := mk_seen (s_obs r) (s_sat r) None.
