(** Specification vocabulary for the schemas. *)
From Coq Require Import String List Bool Arith.
From Verif Require Import Schema_Model.
Import ListNotations.
Open Scope string_scope.

(** The outermost instances in a value. *)
Fixpoint insts {atom} (v : pv atom) : list (pv atom) :=
  match v with
  | PAtom _ | PStr _ => []
  | PList l => flat_map insts l
  | PDict l => flat_map (fun e => insts (snd e)) l
  | PInst _ _ => [v]
  end.
(** A value without instances, as read from a file. *)
Definition plain {atom} (v : pv atom) : Prop := insts v = [].
(** The class of an instance. *)
Definition class {atom} (v : pv atom) : option cls := match v with PInst c _ => Some c | _ => None end.
(** A field of an instance. *)
Definition getattr {atom} (v : pv atom) (n : string) : option (pv atom) := match v with PInst _ l => find n l | _ => None end.
(** The type of a field of a class. *)
Definition annotation (c : cls) (n : string) : option ftype := find n (map (fun d => (d_name d, d_type d)) (fields c)).
(** The classes that the annotation of a field names. *)
Fixpoint named (t : ftype) : list cls :=
  match t with FLit _ | FScalar _ => [] | FModel c => [c] | FUnion cs => cs | FList t _ => named t end.
(** The values of a field: the elements of a list, or the value. *)
Definition elements {atom} (v : pv atom) : list (pv atom) := match v with PList l => l | _ => [v] end.
(** Every instance that is reached from [v] through fields is of a class that the annotation of the field names
    (not of a subclass of it). *)
Inductive as_declared {atom} : pv atom -> Prop :=
  as_declared_inst : forall c l, (forall n t v x, getattr (PInst c l) n = Some v -> annotation c n = Some t -> In x (elements v) ->
     forall d, class x = Some d -> In d (named t) /\ as_declared x) -> as_declared (PInst c l).
(** The value of the discriminator of a class. *)
Definition type_name (c : cls) : option string :=
  match c with
  | Tle => Some "tle" | Circular => Some "circular" | Sso => Some "sso" | Keplerian => Some "keplerian" | Molniya => Some "molniya" | Tundra => Some "tundra"
  | Satellite => Some "satellite" | Train => Some "train" | Walker => Some "walker" | Mog => Some "mog" | Soc => Some "soc"
  | Instrument | PointedInstrument | GroundStation | Architecture => None
  end.
(** Space systems. *)
Definition space_system (c : cls) : Prop := In c [Satellite; Train; Walker; Mog; Soc].
(** The orbits that a space system takes. *)
Definition orbits_of (c : cls) : list cls := match c with Satellite | Train | Walker => [Tle; Circular; Sso; Keplerian] | Mog | Soc => [Circular; Keplerian] | _ => [] end.

Section Spec.
Variable atom : Type.
Notation pv := (pv atom).
Variable scalar : cls -> string -> pv -> option pv.
Variable saved : cls -> string -> pv -> pv.
Variable default : cls -> string -> pv.
Variable walker_check : list (string * pv) -> bool.
Variable choose : list pv -> option pv.
(** Objects that some sequence of constructor calls builds. *)
Inductive made : pv -> Prop :=
  made_by : forall c kwargs o, (forall x, In x (insts (PDict kwargs)) -> made x) ->
    construct atom scalar default walker_check choose c kwargs = Some o -> made o.
(** Contract of scalar fields: what is accepted or default can be saved and is loaded as the same value; values are
    not instances. *)
Definition scalars_restored : Prop :=
  (forall c f x y, scalar c f x = Some y -> scalar c f (saved c f y) = Some y /\ plain y)
  /\ (forall c f y, plain y -> plain (saved c f y))
  /\ (forall c f, scalar c f (saved c f (default c f)) = Some (default c f)).
(** Contract of the choice among alternatives: it takes one of them. *)
Definition chooses : Prop := (forall l x, choose l = Some x -> In x l) /\ (forall x l, choose (x :: l) <> None).
End Spec.

(** The arguments that a class demands, by its documentation. *)
Definition demanded (c : cls) : list string :=
  match c with
  | Tle => ["tle"]
  | Circular | Keplerian | Molniya | Tundra => ["altitude"]
  | Sso => ["altitude"; "equator_crossing_time"]
  | Instrument => []
  | PointedInstrument => ["cross_track_field_of_view"; "along_track_field_of_view"]
  | Satellite | Walker => ["name"; "orbit"]
  | Train => ["name"; "orbit"; "interval"]
  | Mog => ["name"; "orbit"; "parallel_axis"; "transverse_axis"]
  | Soc => ["name"; "orbit"; "swath_width"; "packing_distance"]
  | GroundStation => ["name"; "latitude"; "longitude"]
  | Architecture => ["name"]
  end.
(** The arguments that may be left out. *)
Definition optional (c : cls) : list string :=
  match c with
  | Tle => ["type"]
  | Circular => ["type"; "true_anomaly"; "epoch"; "inclination"; "right_ascension_ascending_node"]
  | Sso => ["type"; "true_anomaly"; "epoch"; "equator_crossing_ascending"]
  | Keplerian => ["type"; "true_anomaly"; "epoch"; "inclination"; "right_ascension_ascending_node"; "eccentricity"; "perigee_argument"]
  | Molniya => ["type"; "true_anomaly"; "epoch"; "inclination"; "right_ascension_ascending_node"; "orbital_period"; "perigee_argument"]
  | Tundra => ["type"; "true_anomaly"; "epoch"; "inclination"; "right_ascension_ascending_node"; "orbital_period"; "perigee_argument"; "eccentricity"]
  | Instrument => ["name"; "field_of_regard"; "min_access_time"; "req_self_sunlit"; "req_target_sunlit"; "access_time_fixed"]
  | PointedInstrument => ["name"; "field_of_regard"; "min_access_time"; "req_self_sunlit"; "req_target_sunlit"; "access_time_fixed"; "roll_angle"; "pitch_angle";
      "is_rectangular"; "cross_track_pixels"; "along_track_pixels"; "cross_track_oversampling"; "along_track_oversampling"]
  | Satellite => ["type"; "instruments"]
  | Train => ["type"; "instruments"; "number_satellites"; "repeat_ground_track"]
  | Walker => ["type"; "instruments"; "configuration"; "number_satellites"; "number_planes"; "relative_spacing"]
  | Mog => ["type"; "instruments"; "clockwise"; "number_satellites"]
  | Soc => ["type"; "instruments"]
  | GroundStation => ["elevation"; "min_elevation_angle"; "min_access_time"]
  | Architecture => ["satellites"; "stations"]
  end.
(** Arguments that are neither discriminators nor objects nor lists of objects. *)
Definition simple (n : string) : Prop := ~ In n ["type"; "orbit"; "instruments"; "satellites"; "stations"].
(** Classes all of whose arguments are simple or the discriminator. *)
Definition flat_class (c : cls) : Prop := In c [Tle; Circular; Sso; Keplerian; Molniya; Tundra; Instrument; PointedInstrument; GroundStation].
