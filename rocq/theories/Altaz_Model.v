(** Model of the optional altitude and azimuth columns of ground tracks and ground pixels, src/tatc/analysis/track.py:448-467
    and 723-755. *)
From Coq Require Import Reals ZArith List Bool.
From Verif Require Import Base RBase Tle_Model Geom_Model Instr_Model Poly_Model Track_Model.
Import ListNotations.
Open Scope R_scope.

(** A row with its optional columns sat_alt and sat_az, solar_alt and solar_az (degrees), track.py:451-452, 463-464,
    735-736, 751-752. *)
Record arow A := mk_arow { a_row : A; a_sat : option (R * R); a_sun : option (R * R) }.
Arguments mk_arow {A}.
Arguments a_row {A}.
Arguments a_sat {A}.
Arguments a_sun {A}.

Section Altaz.
Variable W : world.
Local Notation St := (w_St W).
Local Notation G := (w_G W).
(** skyfield: altitude and azimuth of the satellite in the state [s] propagated for the first time, as seen from a place
    whose position is taken at the second time, track.py:450 and 727-731. *)
Variable sat_seen : Z -> Z -> pt -> R * R.
(** skyfield: altitude and azimuth of the sun at a time as seen from a place, track.py:456-462 and 741-749. *)
Variable sun_seen : Z -> pt -> R * R.

(** list.index: the first position of a value; ValueError if there is none.  track.py:727. *)
Fixpoint list_index (x : Z) (l : list Z) : pyres nat :=
  match l with [] => Raise ValueError | y :: r => if (y =? x)%Z then Ok 0%nat else bind (list_index x r) (fun n => Ok (S n)) end.

(** gpd.clip(track, mask) with the optional columns, track.py:466-467. *)
Definition clip_arows (m : mask G) (rows : list (arow (grow G))) : list (arow (grow G)) :=
  w_clip_order W (arow (grow G)) (filter_some (map (fun a => match m_cut m (g_geom (a_row a)) with
    | Some g => Some (mk_arow (mk_grow (g_time (a_row a)) (g_sat (a_row a)) (g_instr (a_row a)) (g_valid (a_row a)) g) (a_sat a) (a_sun a))
    | None => None end) rows)).
(** collect_ground_track, track.py:287-468, with the columns of lines 448-464: computed for the culled track with its own
    times and the footprint centers, and assigned by position. *)
Definition ground_track_altaz (sa : sat) (times : list Z) (idx : Z) (elevation : R) (m : option (mask G)) (src : source)
    (sat_altaz solar_altaz : bool) : pyres (list (arow (grow G))) :=
  if Nat.eqb (length times) 0 then Ok []
  else bind (py_index (sa_instruments sa) idx) (fun i =>
    let track0 := orbit_track W times in
    match (match m with
           | Some k => if Nat.ltb 1 (length times) then cull W i elevation k track0 else Some track0
           | None => Some track0
           end) with
    | None => Ok []
    | Some track =>
        let target := map (fun x => w_footprint_center W i elevation (snd x)) track in
        bind (validity W i (w_footprint_center W i elevation) (map snd track)) (fun valid =>
          let rows := map (fun x => mk_grow (w_reported W (fst (fst x))) (sa_name sa) (in_name i) (snd x) (ground_geometry W src i elevation (fst x)))
                          (combine track valid) in
          let sat_col := map (fun x => if sat_altaz then Some (sat_seen (fst (fst x)) (fst (fst x)) (snd x)) else None) (combine track target) in
          let sun_col := map (fun x => if solar_altaz then Some (sun_seen (fst (fst x)) (snd x)) else None) (combine track target) in
          let rows := map (fun x => mk_arow (fst (fst x)) (snd (fst x)) (snd x)) (combine (combine rows sat_col) sun_col) in
          Ok (match m with Some k => clip_arows k rows | None => rows end))
    end).

(** One column value of collect_ground_pixels, track.py:725-734: the state found by the position of the reported time among
    the reported times, seen from the pixel at the reported time. *)
Definition pixel_sat (track : list (Z * St)) (r : prow) : pyres (R * R) :=
  bind (list_index (p_time r) (map (fun x => w_reported W (fst x)) track)) (fun n =>
    match nth_error track n with Some x => Ok (sat_seen (fst x) (p_time r) (p_geom r)) | None => Raise IndexError end).
(** collect_ground_pixels, track.py:611-756, with the columns of lines 723-752. *)
Definition ground_pixels_altaz (sa : sat) (times : list Z) (idx : Z) (elevation : R) (m : option (mask G)) (sat_altaz solar_altaz : bool)
    : pyres (list (arow prow)) :=
  if Nat.eqb (length times) 0 then Ok []
  else bind (py_index (sa_instruments sa) idx) (fun i =>
    match in_pointed i with
    | None => Raise ValueError
    | Some p =>
        if negb (pi_rect p) then Raise ValueError
        else
          let track0 := orbit_track W times in
          match (match m with
                 | Some k => if Nat.ltb 1 (length times) then cull W i elevation k track0 else Some track0
                 | None => Some track0
                 end) with
          | None => Ok []
          | Some track =>
              bind (mapM (fun x => mapM (fun ij => pixel_row W sa i x (w_pixel_position W p elevation (snd x) ij)) (pixel_indices p)) track) (fun rows =>
                let records := concat rows in
                bind (mapM (fun r => if sat_altaz then bind (pixel_sat track r) (fun v => Ok (Some v)) else Ok None) records) (fun sat_col =>
                  let sun_col := map (fun r => if solar_altaz then Some (sun_seen (p_time r) (p_geom r)) else None) records in
                  let gdf := map (fun x => mk_arow (fst (fst x)) (snd (fst x)) (snd x)) (combine (combine records sat_col) sun_col) in
                  Ok (match m with Some k => clip_points W k (fun a => p_geom (a_row a)) gdf | None => gdf end)))
          end
    end).
End Altaz.
