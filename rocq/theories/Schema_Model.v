(** Model of the object schemas as pydantic classes: which inputs are accepted as which class, and how objects
    are saved and loaded (src/tatc/schemas/architecture.py, satellite.py, instrument.py, orbit.py, point.py).
    pydantic itself (version 2, default configuration) is modelled by [validate] and [dump]: dictionaries fill
    the declared fields and other entries are ignored; instances of a class or of a subclass are taken as they
    are; saving writes the fields of the declared class. *)
From Coq Require Import String List Bool Arith.
Import ListNotations.
Open Scope string_scope.

(** The classes, satellite.py:29-482, orbit.py:27, 702-1183, instrument.py:29, 177, point.py:39, architecture.py:21. *)
Inductive cls := Tle | Circular | Sso | Keplerian | Molniya | Tundra | Instrument | PointedInstrument
  | Satellite | Train | Walker | Mog | Soc | GroundStation | Architecture.
(** Equality of classes (no counterpart in the source: class identity, satellite.py:47-400). *)
Definition cls_eq_dec (c d : cls) : {c = d} + {c <> d}. Proof. decide equality. Defined.
(** See above, satellite.py:47-400. *)
Definition cls_eqb (c d : cls) : bool := if cls_eq_dec c d then true else false.
(** The base classes that are classes of the model: the class statements at satellite.py:66, 141, 266, 400,
    orbit.py:931, 1140 and instrument.py:177. *)
Definition bases (c : cls) : list cls :=
  match c with
  | Train | Walker | Mog | Soc => [Satellite]
  | Keplerian => [Circular]
  | Tundra => [Molniya]
  | PointedInstrument => [Instrument]
  | _ => []
  end.
(** isinstance(object of class c, d), pydantic's test for instances, e.g. for satellite.py:38-43. *)
Definition isinstance (c d : cls) : bool := cls_eqb c d || existsb (cls_eqb d) (bases c).

(** Types of fields: a literal; a value whose conversion is left to [scalar]; an instance of a class; a union of
    classes; a list with a least length. satellite.py:34-43, architecture.py:26-32. *)
Inductive ftype := FLit (s : string) | FScalar (f : string) | FModel (c : cls) | FUnion (l : list cls) | FList (t : ftype) (least : nat).

(** Python values that are given to or kept by the classes: atoms (numbers, strings, times, None), lists,
    dictionaries with string keys, and instances with their fields. satellite.py:29-43. *)
Inductive pv (atom : Type) := PAtom (a : atom) | PStr (s : string) | PList (l : list (pv atom)) | PDict (l : list (string * pv atom)) | PInst (c : cls) (l : list (string * pv atom)).
Arguments PAtom {atom}. Arguments PStr {atom}. Arguments PList {atom}. Arguments PDict {atom}. Arguments PInst {atom}.

(** Whether a field has a default, and which. Field(...) is required. orbit.py:707-712. *)
Inductive dflt := Required | Default.
(** A declared field. satellite.py:34-43. *)
Record decl := mk_decl { d_name : string; d_type : ftype; d_dflt : dflt }.
(** A required and an optional scalar field. orbit.py:707-712. *)
Definition req (n : string) : decl := mk_decl n (FScalar n) Required.
(** See above, orbit.py:708. *)
Definition opt (n : string) : decl := mk_decl n (FScalar n) Default.
(** The type discriminator of a class, e.g. satellite.py:52. *)
Definition tag (s : string) : decl := mk_decl "type" (FLit s) Default.

(** The fields of OrbitBase, orbit.py:707-712. *)
Definition base_fields : list decl := [req "altitude"; opt "true_anomaly"; opt "epoch"].
(** The fields of CircularOrbit, orbit.py:756-762; a subclass replaces the discriminator (orbit.py:936). *)
Definition circular_fields (t : string) : list decl := base_fields ++ [tag t; opt "inclination"; opt "right_ascension_ascending_node"].
(** The fields of MolniyaOrbit, orbit.py:1027-1035. *)
Definition molniya_fields (t : string) : list decl :=
  base_fields ++ [tag t; opt "inclination"; opt "right_ascension_ascending_node"; opt "orbital_period"; opt "perigee_argument"].
(** The fields of Instrument, instrument.py:34-58. *)
Definition instrument_fields : list decl :=
  [opt "name"; opt "field_of_regard"; opt "min_access_time"; opt "req_self_sunlit"; opt "req_target_sunlit"; opt "access_time_fixed"].
(** The orbits a satellite may have, satellite.py:38-40, 74-76 and 154-156; the order of the alternatives does not
    matter here. *)
Definition orbit_union : list cls := [Tle; Circular; Sso; Keplerian].
(** The fields of SpaceSystem and Satellite, satellite.py:34-43 and 52; constellations replace the discriminator and
    MOG and SOC constellations the type of the orbit (276-279, 411-414). *)
Definition satellite_fields (t : string) (o : ftype) : list decl :=
  [req "name"; mk_decl "orbit" o Required; mk_decl "instruments" (FList (FModel Instrument) 1) Default; tag t].
(** The declared fields of every class, in the order of the source with inherited fields first: satellite.py:29-414,
    orbit.py:27-1153, instrument.py:29-227, point.py:39-74, architecture.py:21-32. *)
Definition fields (c : cls) : list decl :=
  match c with
  | Tle => [tag "tle"; req "tle"]
  | Circular => circular_fields "circular"
  | Sso => base_fields ++ [tag "sso"; req "equator_crossing_time"; opt "equator_crossing_ascending"]
  | Keplerian => circular_fields "keplerian" ++ [opt "eccentricity"; opt "perigee_argument"]
  | Molniya => molniya_fields "molniya"
  | Tundra => molniya_fields "tundra" ++ [opt "eccentricity"]
  | Instrument => instrument_fields
  | PointedInstrument => instrument_fields ++ [req "cross_track_field_of_view"; req "along_track_field_of_view"; opt "roll_angle"; opt "pitch_angle";
      opt "is_rectangular"; opt "cross_track_pixels"; opt "along_track_pixels"; opt "cross_track_oversampling"; opt "along_track_oversampling"]
  | Satellite => satellite_fields "satellite" (FUnion orbit_union)
  | Train => satellite_fields "train" (FUnion orbit_union) ++ [opt "number_satellites"; req "interval"; opt "repeat_ground_track"]
  | Walker => satellite_fields "walker" (FUnion orbit_union) ++ [opt "configuration"; opt "number_satellites"; opt "number_planes"; opt "relative_spacing"]
  | Mog => satellite_fields "mog" (FModel Circular) ++ [req "parallel_axis"; req "transverse_axis"; opt "clockwise"; opt "number_satellites"]
  | Soc => satellite_fields "soc" (FModel Circular) ++ [req "swath_width"; req "packing_distance"]
  | GroundStation => [req "name"; req "latitude"; req "longitude"; opt "elevation"; opt "min_elevation_angle"; opt "min_access_time"]
  | Architecture => [req "name"; mk_decl "satellites" (FList (FUnion [Satellite; Train; Walker; Mog]) 0) Default; mk_decl "stations" (FList (FModel GroundStation) 0) Default]
  end.

Section Pydantic.
Variable atom : Type.
Notation pv := (pv atom).
(** Conversion and bounds of a scalar field of a class (numbers, strings, times, lists of strings), e.g.
    orbit.py:707-712; None: rejected. *)
Variable scalar : cls -> string -> pv -> option pv.
(** How a scalar field is saved (model_dump_json), e.g. orbit.py:709. *)
Variable saved : cls -> string -> pv -> pv.
(** The default of a scalar field, e.g. orbit.py:708. *)
Variable default : cls -> string -> pv.
(** The model validators of WalkerConstellation (numbers of planes and satellites, relative spacing),
    satellite.py:175-198, modelled in Const_Model.v; true: accepted. *)
Variable walker_check : list (string * pv) -> bool.
(** pydantic's choice among the alternatives of a union that accept a dictionary, satellite.py:38-40. *)
Variable choose : list pv -> option pv.

(** The model validators (mode "after") of a class: only WalkerConstellation has some, satellite.py:175-198. *)
Definition check (c : cls) (l : list (string * pv)) : bool := match c with Walker => walker_check l | _ => true end.
(** The default of a field: literals are their own, the default instruments are [Instrument()] (satellite.py:41-43),
    other lists are empty (architecture.py:29-32). *)
Definition default_of (c : cls) (d : decl) : pv :=
  match d_type d with
  | FLit s => PStr s
  | FScalar f => default c f
  | FList _ 0 => PList []
  | _ => PList [PInst Instrument (map (fun f => (d_name f, default Instrument (d_name f))) instrument_fields)]
  end.
(** The last entry of a dictionary, if any (keys of Python dictionaries are unique; the last wins in JSON).
    No source line beyond satellite.py:34-43 (pydantic). *)
Fixpoint find {A} (n : string) (l : list (string * A)) : option A :=
  match l with
  | [] => None
  | (k, a) :: r => match find n r with Some b => Some b | None => if String.eqb k n then Some a else None end
  end.
(** All or nothing; no source line beyond satellite.py:34-43 (pydantic). *)
Fixpoint all {A} (l : list (option A)) : option (list A) :=
  match l with
  | [] => Some []
  | None :: _ => None
  | Some a :: r => match all r with Some r => Some (a :: r) | None => None end
  end.
(** Construction of a class from the entries of a dictionary, given how each entry is validated against a type:
    BaseModel.__init__ for the classes at satellite.py:29-482. *)
Definition model (c : cls) (subs : list (string * (pv * (ftype -> option pv)))) : option pv :=
  match all (map (fun d => match find (d_name d) subs with
                           | Some (v, k) => option_map (pair (d_name d)) (match d_type d with FScalar f => scalar c f v | t => k t end)
                           | None => match d_dflt d with Required => None | Default => Some (d_name d, default_of c d) end
                           end) (fields c)) with
  | Some l => if check c l then Some (PInst c l) else None
  | None => None
  end.
(** pydantic's validation of a value against a declared type, as for satellite.py:34-43 and architecture.py:26-32.
    Unions: an instance of an alternative (or of a subclass) is taken as it is; of the alternatives that accept a
    dictionary [choose] takes one. *)
Fixpoint validate (v : pv) (t : ftype) : option pv :=
  match t, v with
  | FLit s, PStr a => if String.eqb a s then Some v else None
  | FModel c, PInst d _ => if isinstance d c then Some v else None
  | FModel c, PDict l => model c (map (fun e => (fst e, (snd e, validate (snd e)))) l)
  | FUnion cs, PInst d _ => if existsb (isinstance d) cs then Some v else None
  | FUnion cs, PDict l =>
      choose (flat_map (fun c => match model c (map (fun e => (fst e, (snd e, validate (snd e)))) l) with Some x => [x] | None => [] end) cs)
  | FList t' n, PList l => if (n <=? length l)%nat then option_map PList (all (map (fun x => validate x t') l)) else None
  | _, _ => None
  end.
(** A constructor call with keyword arguments, or model_validate of a dictionary: the classes at satellite.py:29-482,
    architecture.py:21, instrument.py:29, 177, orbit.py:27-1140, point.py:39. *)
Definition construct (c : cls) (kwargs : list (string * pv)) : option pv := validate (PDict kwargs) (FModel c).

(** The fields of a class are saved, whatever the class of the instance (pydantic), e.g. satellite.py:34-43. *)
Definition save_as (c : cls) (subs : list (string * (pv * (ftype -> pv)))) : pv :=
  PDict (flat_map (fun d => match find (d_name d) subs with
                            | Some (v, k) => [(d_name d, match d_type d with FScalar f => saved c f v | t => k t end)]
                            | None => []
                            end) (fields c)).
(** The alternative of a union that saves an instance: its own class, else the first base class, else its own class
    (pydantic). satellite.py:38-40, architecture.py:27-29. *)
Definition saver (cs : list cls) (d : cls) : cls :=
  if existsb (cls_eqb d) cs then d else match filter (isinstance d) cs with c :: _ => c | [] => d end.
(** model_dump_json against a declared type. satellite.py:34-43, architecture.py:26-32. *)
Fixpoint dump (v : pv) (t : ftype) : pv :=
  match t, v with
  | FModel c, PInst d l => save_as (if isinstance d c then c else d) (map (fun e => (fst e, (snd e, dump (snd e)))) l)
  | FUnion cs, PInst d l => save_as (saver cs d) (map (fun e => (fst e, (snd e, dump (snd e)))) l)
  | FList t' _, PList l => PList (map (fun x => dump x t') l)
  | _, _ => v
  end.
(** Saving an object (model_dump_json) and loading it (model_validate_json of its class), classes as above,
    satellite.py:29-482. *)
Definition save (o : pv) : pv := match o with PInst c _ => dump o (FModel c) | _ => o end.
(** See above, satellite.py:29-482. *)
Definition load (c : cls) (v : pv) : option pv := validate v (FModel c).
End Pydantic.
