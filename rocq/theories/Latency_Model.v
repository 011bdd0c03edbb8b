(** Model of src/tatc/analysis/latency.py (downlink latency analysis).
    Same conventions as Coverage_Model. *)
From Coq Require Import String ZArith QArith List Bool.
From Verif Require Import Base Coverage_Model.
Import ListNotations.
Open Scope Z_scope.

(** A downlink record, latency.py:60-69 (geometry omitted). *)
Record downlink := mk_down {
  d_station : string; d_sat : string; d_start : Z; d_end : Z; d_epoch : Z }.

(** The ground station attributes read by collect_downlinks
    (latency.py:61,74,78; src/tatc/schemas/point.py:39-74). *)
Record station := mk_station { st_name : string; st_min_access : Z }.

(** collect_downlinks, latency.py:40-89.  [periods s] are the visible intervals
    of station [s] (latency.py:71-77). *)
Definition collect_downlinks (srt : list downlink -> list downlink) (sat : string)
    (periods : station -> list (Z * Z)) (stations : list station) : list downlink :=
  srt (flat_map
         (fun s => map (fun p => mk_down (st_name s) sat (fst p) (snd p) (interval_mid p))
                       (filter (fun p => st_min_access s <=? snd p - fst p) (periods s)))
         stations).

(** A latency row, latency.py:149-179 (geometry and angles omitted). *)
Record latency_row := mk_lat {
  l_point : Z; l_sat : string; l_inst : string;
  l_station : option string; l_downlinked : option Z; l_latency : option Z;
  l_observed : Z }.

(** pandas.merge_asof(by="satellite", direction="forward"), latency.py:140-147:
    the first row of the (sorted) right frame with the same satellite and a start
    not before the observation's end. *)
Definition asof_forward (downs : list downlink) (o : obs) : option downlink :=
  find (fun d => String.eqb (d_sat d) (o_sat o) && (o_end o <=? d_start d)) downs.

(** latency.py:149-188 for one merged row. *)
Definition latency_of (downs : list downlink) (o : obs) : latency_row :=
  match asof_forward downs o with
  | Some d => mk_lat (o_point o) (o_sat o) (o_inst o)
                (Some (d_station d)) (Some (d_epoch d)) (Some (d_epoch d - o_epoch o)) (o_epoch o)
  | None => mk_lat (o_point o) (o_sat o) (o_inst o) None None None (o_epoch o)
  end.

(** compute_latencies, latency.py:112-201.  [srt_o], [srt_d], [srt_l] are the
    three sort_values calls (latency.py:141,142,198). *)
Definition compute_latencies (srt_o : list obs -> list obs)
    (srt_d : list downlink -> list downlink) (srt_l : list latency_row -> list latency_row)
    (rows : list obs) (downs : list downlink) : list latency_row :=
  match rows, downs with
  | [], _ => []
  | _, [] => []
  | _, _ => srt_l (map (latency_of (srt_d downs)) (srt_o rows))
  end.

(** A reduced latency row, latency.py:240-246 (exact rationals, as in
    Coverage_Model.red). *)
Record lred := mk_lred { lr_point : Z; lr_latency : option Q; lr_samples : Z }.

(** dissolve("point_id") of one group, latency.py:240-246. *)
Definition reduce_latency_group (g : list latency_row) : option lred :=
  match g with
  | [] => None
  | x :: _ => Some (mk_lred (l_point x) (mean_opt (map l_latency g)) (sum_Z (map (fun _ => 1) g)))
  end.

(** reduce_latencies, latency.py:220-251. *)
Definition reduce_latencies (rows : list latency_row) : list lred :=
  filter_some (map reduce_latency_group (group_by l_point rows)).

(** A gridded latency row, latency.py:276-290. *)
Record lgrid := mk_lgrid { lg_cell : Z; lg_samples : Z; lg_latency : option Q }.

(** grid_latencies, latency.py:254-291: same label lookup as grid_observations. *)
Definition grid_latencies {G} (contains : G -> lred -> bool)
    (rows : list lred) (cells : list (cell G)) : pyres (list lgrid) :=
  match rows with
  | [] => Ok (map (fun c => mk_lgrid (c_id c) 0 None) cells)
  | _ =>
      let groups := group_by (fun p => c_id (fst p)) (sjoin contains cells rows) in
      mapM (fun g =>
        bind (grid_group lr_samples rows lr_latency g) (fun a =>
        Ok (mk_lgrid (match g with [] => 0 | p :: _ => c_id (fst p) end)
              (sum_Z (map (fun p => lr_samples (snd p)) g)) a))) groups
  end.
