(** Model of the angles and lighting conditions reported with observations, src/tatc/analysis/coverage.py:162-294. *)
From Coq Require Import String Reals ZArith List Bool.
From Verif Require Import Base RBase Instr_Model Coverage_Model Epoch_Model.
Import ListNotations.
Open Scope Z_scope.

(** A row with its further columns: sat_alt and sat_az; sat_sunlit, solar_alt and solar_az, solar_time.  coverage.py:244-259. *)
Record seen := mk_seen { s_obs : obs; s_sat : R * R; s_sun : option (bool * (R * R) * R) }.
(** Event codes of skyfield, coverage.py:66, 76, 77. *)
Definition event_of (code : Z) : event := if code =? 0 then Rise else if code =? 1 then Culminate else SetEv.
(** The two arrays that get_observation_events returns, as one list.  coverage.py:60-62. *)
Definition event_list (x : list Z * list Z) : events := combine (fst x) (map event_of (snd x)).

(** What collect_observations reads of the orbit and of its configuration: the epochs of the element sets, whether repeat cycles
    are used for events and for tracks, and the repeat cycle.  orbit.py:554-690. *)
Record source := mk_source { so_epochs : list Z; so_repeat_events : bool; so_repeat_track : bool; so_cycle : option Z }.

Section Seen.
(** numpy argsort. orbit.py:461. *)
Variable argsort : list Z -> list nat.
(** skyfield, for one satellite and point: events of an element set in a window, *)
Variable find_events : nat -> Z -> Z -> list Z * list Z.
(** the satellite in a propagated state (element set and instant) seen from the point at a time: altitude and azimuth, *)
Variable sat_seen : nat * Z -> Z -> R * R.
(** whether it is sunlit, *)
Variable sunlit : nat * Z -> Z -> bool.
(** altitude and azimuth of the sun seen from the point, *)
Variable sun_seen : Z -> R * R.
(** and its hour angle in hours.  coverage.py:242-259, instrument.py:157-168. *)
Variable hour_angle : Z -> R.
(** shapely: whether the footprint in a state contains the point (pointed instruments only), coverage.py:221-231. *)
Variable footprint : option (nat * Z -> bool).

(** get_orbit_track of a single time, orbit.py:574-577, 588, 594-601, 612-616. *)
Definition state_at (o : source) (t : Z) : nat * Z := hd (0%nat, t) (orbit_track (so_epochs o) (so_repeat_track o) (so_cycle o) [t]).
(** is_valid_observation of the state at a time, coverage.py:217-220; a single time gives a single answer (instrument.py:172-174). *)
Definition valid_at (o : source) (q : requirement) (t : Z) : bool :=
  match is_valid_observation q [(sunlit (state_at o t) t, fst (sun_seen t))] with Ok (One b) => b | _ => false end.
(** The columns of coverage.py:242-259 for one row and its state. *)
Definition add_columns (omit_solar : bool) (x : obs * (nat * Z)) : seen :=
  let t := o_epoch (fst x) in
  mk_seen (fst x) (sat_seen (snd x) t)
    (if omit_solar then None else Some (sunlit (snd x) t, sun_seen t, (hour_angle t + 12)%R)).
(** collect_observations, coverage.py:162-262: visible periods, filtered records, and columns that are computed for the track at
    the epochs of all records and assigned by position. *)
Definition collect_seen (o : source) (pid : Z) (sat inst : string) (a : access_req) (q : requirement) (start end_ maxacc : Z)
    (omit_solar : bool) : pyres (list seen) :=
  bind (visible_intervals start end_ maxacc
          (event_list (get_observation_events find_events argsort (so_epochs o) (so_repeat_events o) (so_cycle o) start end_)))
    (fun periods =>
       let records := collect_observations pid sat inst a (valid_at o q)
                        (match footprint with None => None | Some c => Some (fun t => c (state_at o t)) end) periods in
       let track := orbit_track (so_epochs o) (so_repeat_track o) (so_cycle o) (map o_epoch records) in
       Ok (map (add_columns omit_solar) (combine records track))).
End Seen.

(** collect_multi_observations, coverage.py:265-294, with the columns. *)
Definition collect_multi_seen {C S} (srt : list seen -> list seen) (members : C -> list S) (n_inst : S -> nat)
    (collect : S -> nat -> pyres (list seen)) (sats : list C) : pyres (list seen) :=
  bind (mapM (fun x => collect (fst x) (snd x))
         (flat_map (fun c => flat_map (fun s => map (fun i => (s, i)) (seq 0 (n_inst s))) (members c)) sats))
    (fun fs => match fs with [] => Raise ValueError | _ => Ok (srt (concat fs)) end).
