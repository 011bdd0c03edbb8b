(** Specification vocabulary for analyses taken from the visibility of satellites to the report. *)
From Coq Require Import String ZArith QArith List Bool Sorting.Permutation.
From Verif Require Import Base Coverage_Model Coverage_Spec Latency_Model Latency_Spec.
Import ListNotations.
Open Scope Z_scope.

(** What find_events reports about one pair of satellite and place between [start] and [end_], the satellite being in
    view at the start iff [b]: events in order, physically consistent, passes no longer than twice the longest
    access; and at least one event if the satellite is in view at all. *)
Definition sky (start end_ maxacc : Z) (b : bool) (ev : events) : Prop :=
  chronological ev /\ in_window start end_ ev /\ alternates b ev /\ short_passes (2 * maxacc) None ev
  /\ (ev = [] -> b = false).

(** In view at instant [t], the instant of rising included. *)
Definition in_view (b : bool) (ev : events) (t : Z) : Prop := above b ev t = true \/ In (t, Rise) ev.

(** Some instrument of some member of the constellations is one for which [P] holds. *)
Definition some_instrument {C S} (sats : list C) (members : C -> list S) (n_inst : S -> nat) (P : S -> nat -> Prop) : Prop :=
  exists c s i, In c sats /\ In s (members c) /\ (i < n_inst s)%nat /\ P s i.

(** First start and last end of a list of aggregated records. *)
Definition time_span (l : list agg) : Z :=
  match l with [] => 0 | a :: r => a_end (last (a :: r) a) - a_start a end.

(** [collect p s i] is collect_observations of instrument [i] of satellite [s] over point [p] between [start] and
    [end_], with the events [ev p s i] (in a section of the period, coverage.py:162-262 calls
    _get_visible_interval_series first and then filters and records). *)
Definition observes {S} (start end_ : Z) (maxacc : Z -> S -> nat -> Z) (ev : Z -> S -> nat -> events)
    (name : S -> string) (inst : S -> nat -> string) (req : S -> nat -> access_req) (valid : Z -> S -> nat -> Z -> bool)
    (fp : Z -> S -> nat -> option (Z -> bool)) (collect : Z -> S -> nat -> list obs) : Prop :=
  forall p s i, exists iv, visible_intervals start end_ (maxacc p s i) (ev p s i) = Ok iv
    /\ collect p s i = collect_observations p (name s) (inst s i) (req s i) (valid p s i) (fp p s i) iv.

(** The instrument takes every pass as it is: no minimum or fixed access time, always valid, not pointed. *)
Definition takes_all {S} (req : S -> nat -> access_req) (valid : Z -> S -> nat -> Z -> bool)
    (fp : Z -> S -> nat -> option (Z -> bool)) : Prop :=
  forall p s i, req s i = {| acc_fixed := false; acc_min := 0 |} /\ (forall t, valid p s i t = true) /\ fp p s i = None.

(** Pass (l, r) meets the requirements of an instrument. *)
Definition accepted_pass (a : access_req) (valid : Z -> bool) (fp : option (Z -> bool)) (l r : Z) : Prop :=
  acc_min a <= r - l /\ valid (l + (r - l) / 2) = true /\ (forall c, fp = Some c -> c (l + (r - l) / 2) = true).

(** [per s st] are the visible intervals of satellite [s] over station [st] (latency.py:71-77). *)
Definition contacts {S} (start end_ : Z) (maxacc : S -> station -> Z) (ev : S -> station -> events)
    (per : S -> station -> list (Z * Z)) : Prop :=
  forall s st, visible_intervals start end_ (maxacc s st) (ev s st) = Ok (per s st).

(** The satellite comes into view of the station at [u], within the period and not before [t]. *)
Definition rises_after (end_ t : Z) (ev : events) (u : Z) : Prop := In (u, Rise) ev /\ t <= u < end_.

(** The pass that begins at [u] ends at [r]: in view all along, and setting at [r] unless the period ends there. *)
Definition pass_until (end_ : Z) (b : bool) (ev : events) (u r : Z) : Prop :=
  u < r <= end_ /\ (forall t, u < t <= r -> above b ev t = true) /\ (r = end_ \/ In (r, SetEv) ev).

(** The latency row of observation [o]: down at the middle of the earliest pass over a station that begins at or after the
    end of the observation; nothing if there is no such pass. *)
Definition next_pass_row (end_ : Z) (stations : list station) (b : station -> bool) (ev : station -> events)
    (o : obs) (row : latency_row) : Prop :=
  l_point row = o_point o /\ l_sat row = o_sat o /\ l_inst row = o_inst o /\ l_observed row = o_epoch o
  /\ ((exists st u r, In st stations /\ rises_after end_ (o_end o) (ev st) u
         /\ (forall st' u', In st' stations -> rises_after end_ (o_end o) (ev st') u' -> u <= u')
         /\ pass_until end_ (b st) (ev st) u r
         /\ l_station row = Some (st_name st) /\ l_downlinked row = Some (u + (r - u) / 2)
         /\ l_latency row = Some (u + (r - u) / 2 - o_epoch o))
      \/ ((forall st u, In st stations -> ~ rises_after end_ (o_end o) (ev st) u)
          /\ l_station row = None /\ l_downlinked row = None /\ l_latency row = None)).
