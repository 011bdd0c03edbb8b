(** Independent specification of downlink selection. *)
From Coq Require Import String ZArith QArith List Bool Sorting.Sorted.
From Verif Require Import Base Coverage_Model Latency_Model.
Import ListNotations.
Open Scope Z_scope.

(** Downlink [d] can carry observation [o]: same satellite, not before its end. *)
Definition usable (o : obs) (d : downlink) : Prop := d_sat d = o_sat o /\ o_end o <= d_start d.

(** [row] is the latency record of [o] among the opportunities [downs]. *)
Definition latency_record (downs : list downlink) (o : obs) (row : latency_row) : Prop :=
  l_point row = o_point o /\ l_sat row = o_sat o /\ l_inst row = o_inst o
  /\ l_observed row = o_epoch o
  /\ ((exists d, In d downs /\ usable o d
         /\ (forall d', In d' downs -> usable o d' -> d_start d <= d_start d')
         /\ l_station row = Some (d_station d)
         /\ l_downlinked row = Some (d_epoch d)
         /\ l_latency row = Some (d_epoch d - o_epoch o))
      \/ ((forall d, In d downs -> ~ usable o d)
          /\ l_station row = None /\ l_downlinked row = None /\ l_latency row = None)).

(** The latency rows of a point and their defined latencies. *)
Definition lat_rows_of (p : Z) (rows : list latency_row) : list latency_row :=
  filter (fun a => l_point a =? p) rows.

(** [m] is the sample-weighted mean of the latencies [lat x] of the points of a cell. *)
Definition weighted_latency (rs : list lred) (m : Q) : Prop :=
  exists vs, map lr_latency rs = map Some vs /\
  (m * inject_Z (sum_Z (map lr_samples rs))
   == sum_Q (map (fun p => inject_Z (lr_samples (fst p)) * snd p) (combine rs vs)))%Q.
