(** What columns of results mean, independently of how the frames are put together. *)
From Coq Require Import String List Bool.
From Verif Require Import Base Frames_Model.
Import ListNotations.
Open Scope string_scope.
Open Scope list_scope.

(** The frame has exactly these columns, each once, in any order. *)
Definition columns_are (f : frame) (cs : list string) : Prop := NoDup (cols f) /\ forall c, In c (cols f) <-> In c cs.
(** A step succeeds with exactly these columns. *)
Definition gives (r : pyres frame) (cs : list string) : Prop := exists f, r = Ok f /\ columns_are f cs.
(** Columns that are asked for. *)
Definition asked (b : bool) (cs : list string) : list string := if b then cs else [].

(** Columns of the documentation of each result. *)
Definition observation_columns (omit_solar : bool) : list string :=
  ["point_id"; "geometry"; "satellite"; "instrument"; "start"; "end"; "epoch"; "sat_alt"; "sat_az"]
  ++ asked (negb omit_solar) ["sat_sunlit"; "solar_alt"; "solar_az"; "solar_time"].
Definition aggregate_columns : list string := ["point_id"; "geometry"; "satellite"; "instrument"; "start"; "end"; "epoch"; "access"; "revisit"].
Definition reduced_columns : list string := ["point_id"; "geometry"; "access"; "revisit"; "samples"].
Definition grid_columns : list string := ["cell_id"; "geometry"; "access"; "revisit"; "samples"].
Definition downlink_columns : list string := ["station"; "geometry"; "satellite"; "start"; "end"; "epoch"].
Definition latency_columns : list string := ["point_id"; "geometry"; "satellite"; "instrument"; "sat_alt"; "sat_az"; "station"; "downlinked"; "latency"; "observed"].
Definition reduced_latency_columns : list string := ["point_id"; "geometry"; "latency"; "samples"].
Definition grid_latency_columns : list string := ["cell_id"; "geometry"; "latency"; "samples"].
Definition occultation_columns : list string :=
  ["receiver"; "transmitter"; "is_rising"; "geometry"; "position"; "rx_tx_pitch"; "rx_tx_yaw"; "tp_tx_azimuth"; "start"; "end"; "time"].
Definition orbit_track_columns (velocity sat_sunlit solar_altaz solar_beta : bool) : list string :=
  ["time"; "satellite"; "instrument"; "swath_width"; "valid_obs"; "geometry"] ++ asked velocity ["velocity"] ++ asked sat_sunlit ["sat_sunlit"]
  ++ asked solar_altaz ["solar_alt"; "solar_az"] ++ asked solar_beta ["solar_beta"].
Definition ground_track_columns (sat_altaz solar_altaz : bool) : list string :=
  ["time"; "satellite"; "instrument"; "valid_obs"; "geometry"] ++ asked sat_altaz ["sat_alt"; "sat_az"] ++ asked solar_altaz ["solar_alt"; "solar_az"].
(** Each point has at least one row and each of these at least one group: what groupby and dissolve of a frame with rows give. *)
Definition splits_rows (parts : frame -> list (nat * nat)) : Prop :=
  forall f, nrows f <> 0%nat -> parts f <> [] /\ Forall (fun p => fst p <> 0%nat /\ snd p <> 0%nat) (parts f).
(** Columns left when there is nothing to aggregate or no latency to compute. *)
Definition bare_aggregate_columns : list string := ["point_id"; "geometry"; "satellite"; "instrument"; "start"; "end"; "epoch"].
Definition bare_latency_columns : list string := ["point_id"; "geometry"; "satellite"; "instrument"; "station"; "downlinked"; "latency"; "observed"].
(** Rows a mask lets through: its first number before, its second after the records are made. *)
Definition rows_of (full : nat) (m : option (nat * nat)) : nat :=
  match m with None => full | Some (before, after) => if Nat.eqb before 0 then 0 else after end.
