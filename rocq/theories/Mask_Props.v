(** Properties of the mask argument of the track functions: C185. *)
From Coq Require Import String Reals ZArith List Bool Lra Lia Sorting.Permutation.
From Verif Require Import Base RBase Tle_Model Instr_Model Track_Model Track_Spec Track_Proofs4 Mask_Model Mask_Spec Mask_Proofs Mask_Proofs2 Mask_Proofs3.
Import ListNotations.
Open Scope R_scope.

(** *** C185 *)
(** Ground tracks and pixels: it makes no difference whether an area is given as a geometry, as a frame or as a series of
    one geometry, nor into how many rows of a frame it is divided. *)
Theorem c185_same_area : forall (W : world) S (O : geo_ops (w_G W) S) on foot, geometry_laws O on foot -> clip_keeps (w_clip_order W) ->
  forall sa times idx i elevation src m1 m2, picks (sa_instruments sa) idx i -> one_piece m1 -> one_piece m2 ->
  (forall x y, in_mask on m1 x y <-> in_mask on m2 x y) ->
  same_rows (same_row foot) (ground_track_in W S O sa times idx elevation m1 src) (ground_track_in W S O sa times idx elevation m2 src)
  /\ same_rows eq (ground_pixels_in W S O sa times idx elevation m1) (ground_pixels_in W S O sa times idx elevation m2).
Proof. exact (fun W S O on foot L CK sa times idx i e src m1 m2 P A B C => conj (same_area_ground W S O on foot L CK sa times idx i e src m1 m2 P A B C) (same_area_pixels W S O on foot L CK sa times idx i e m1 m2 P A B C)). Qed.
Print Assumptions c185_same_area.
(** A series of several geometries never adds rows ... *)
Theorem c185_series_partial : forall (W : world) S (O : geo_ops (w_G W) S) on foot, geometry_laws O on foot -> clip_keeps (w_clip_order W) ->
  forall sa times idx i elevation src m1 m2, picks (sa_instruments sa) idx i -> some_rows m1 -> one_piece m2 ->
  (forall x y, in_mask on m1 x y <-> in_mask on m2 x y) ->
  within_rows (same_row foot) (ground_track_in W S O sa times idx elevation m1 src) (ground_track_in W S O sa times idx elevation m2 src)
  /\ within_rows eq (ground_pixels_in W S O sa times idx elevation m1) (ground_pixels_in W S O sa times idx elevation m2).
Proof. exact (fun W S O on foot L CK sa times idx i e src m1 m2 P A B C => conj (within_ground W S O on foot L CK sa times idx i e src m1 m2 P A B C) (within_pixels W S O on foot L CK sa times idx i e m1 m2 P A B C)). Qed.
Print Assumptions c185_series_partial.
(** ... but it loses those that the frame of the same geometries has. *)
Theorem c185_series_refuted : exists (W : world) S (O : geo_ops (w_G W) S) on foot sa times i rows src, geometry_laws O on foot /\ clip_keeps (w_clip_order W)
  /\ picks (sa_instruments sa) 0 i
  /\ ground_track_in W S O sa times 0 0 (MSeries rows) src = Ok []
  /\ exists r l, ground_track_in W S O sa times 0 0 (MFrame rows) src = Ok (r :: l).
Proof. exact series_loses. Qed.
Print Assumptions c185_series_refuted.
(** Orbit tracks: dividing an area never adds rows, and loses none unless the satellite is above an inner border. *)
Theorem c185_orbit_within : forall (W : world) S (O : geo_ops (w_G W) S) on foot, geometry_laws O on foot -> clip_keeps (w_clip_order W) ->
  forall sa times idx i elevation m g c v f1 f2 f3, picks (sa_instruments sa) idx i -> (forall x y, in_mask on m x y <-> on g x y) ->
  within_rows eq (orbit_track_in W S O sa times idx elevation m c v f1 f2 f3) (orbit_track_in W S O sa times idx elevation (MGeometry g) c v f1 f2 f3).
Proof. exact orbit_within. Qed.
Print Assumptions c185_orbit_within.
Theorem c185_orbit_partial : forall (W : world) S (O : geo_ops (w_G W) S) on foot, geometry_laws O on foot -> clip_keeps (w_clip_order W) ->
  forall sa times idx i elevation m g c v f1 f2 f3, picks (sa_instruments sa) idx i -> (forall x y, in_mask on m x y <-> on g x y) ->
  (forall t, In t times -> let p := w_ssp W (w_state W t) in contains O g (px p) (py p) = true ->
     exists h, In h (rows_of S m) /\ contains O h (px p) (py p) = true) ->
  same_rows eq (orbit_track_in W S O sa times idx elevation m c v f1 f2 f3) (orbit_track_in W S O sa times idx elevation (MGeometry g) c v f1 f2 f3).
Proof. exact orbit_same. Qed.
Print Assumptions c185_orbit_partial.
Theorem c185_orbit_refuted : exists (W : world) S (O : geo_ops (w_G W) S) on foot sa times i rows g, geometry_laws O on foot /\ clip_keeps (w_clip_order W)
  /\ picks (sa_instruments sa) 0 i /\ (forall x y, in_mask on (MFrame rows) x y <-> on g x y)
  /\ orbit_track_in W S O sa times 0 0 (MFrame rows) WGS84 false false false false = Ok []
  /\ exists r l, orbit_track_in W S O sa times 0 0 (MGeometry g) WGS84 false false false false = Ok (r :: l).
Proof. exact border_lost. Qed.
Print Assumptions c185_orbit_refuted.
(** Without any geometry: nothing is found, but the ground functions fail as soon as there are two times. *)
Theorem c185_empty : forall (W : world) S (O : geo_ops (w_G W) S) on foot, geometry_laws O on foot -> clip_keeps (w_clip_order W) ->
  forall sa t times idx i elevation src c v f1 f2 f3 m, picks (sa_instruments sa) idx i -> m = MFrame [] \/ m = MSeries [] ->
  ground_track_in W S O sa (t :: times) idx elevation m src = match times with [] => Ok [] | _ => Raise IndexError end
  /\ orbit_track_in W S O sa (t :: times) idx elevation m c v f1 f2 f3 = Ok [].
Proof. exact (fun W S O on foot L CK sa t times idx i e src c v f1 f2 f3 m P E => conj (empty_ground W S O on foot L CK sa t times idx i e src m P E) (empty_orbit W S O CK sa (t :: times) idx i e c v f1 f2 f3 m P E)). Qed.
Print Assumptions c185_empty.
(** Instruments without a rectangular pixel array are refused, whatever the mask. *)
Theorem c185_pixels_refused : forall (W : world) S (O : geo_ops (w_G W) S) sa times idx i elevation m, picks (sa_instruments sa) idx i ->
  times <> [] -> ~ (exists p, in_pointed i = Some p /\ pi_rect p = true) ->
  ground_pixels_in W S O sa times idx elevation m = Raise ValueError.
Proof. exact pixels_refused. Qed.
Print Assumptions c185_pixels_refused.
Example c185_refused_witness : picks (sa_instruments ex_sat) 0 ex_instr /\ ~ (exists p, in_pointed ex_instr = Some p /\ pi_rect p = true).
Proof. split; [exact ex_picks|]. intros (p & E & R). discriminate. Qed.
Example c185_witness : geometry_laws ex_geo cell_on span_on /\ clip_keeps (w_clip_order ex_steps)
  /\ one_piece (MFrame [[0%Z]; [20%Z]]) /\ one_piece (MGeometry [0; 20]%Z)
  /\ forall x y, in_mask cell_on (MFrame [[0%Z]; [20%Z]]) x y <-> in_mask cell_on (MGeometry [0; 20]%Z) x y.
Proof. repeat apply conj; [exact ex_laws|exact ex_steps_keeps|discriminate|exact Logic.I|]. intros x y. symmetry. exact (l_union _ _ _ ex_laws [[0%Z]; [20%Z]] x y). Qed.
