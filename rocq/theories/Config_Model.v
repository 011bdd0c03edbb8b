(** Model of src/tatc/config.py: the runtime configuration, its YAML loader and
    the import-time fallback. *)
From Coq Require Import String ZArith QArith List Bool.
From Verif Require Import Base Tle_Model.
Import ListNotations.
Open Scope Z_scope.

(** Numbers a Python float can hold.  Finite values are rationals: rounding of
    decimal literals belongs to the YAML reader, config.py:77. *)
Inductive num := Fin (q : Q) | PInf | NInf | NaN.

(** What [yaml.safe_load] (config.py:77) can return; dates and other scalars
    are [YOther]. *)
Inductive yval :=
| YNull
| YBool (b : bool)
| YInt (n : Z)
| YFloat (x : num)
| YStr (s : pystr)
| YOther
| YList (l : list yval)
| YMap (l : list (yval * yval)).

(** The state of the file at [path] as seen by config.py:73-79: absent; present
    but not openable (e.g. a directory); not UTF-8; YAML errors of the class
    caught at 78 and of every other class; or a document. *)
Inductive file :=
| Missing
| Unopenable
| Undecodable
| ParserErr
| OtherYamlErr
| Doc (v : yval).

(** RuntimeConfiguration, config.py:20-60. *)
Record config := Config {
  footprint_points_elliptical : Z;
  footprint_points_rectangular_side : Z;
  delta_position_m : num;
  delta_velocity_m_per_s : num;
  search_elevation_deg : num;
  search_duration_days : num;
  repeat_lazy_load : bool;
  repeat_for_orbit_track : bool;
  repeat_for_observation_events : bool;
  orbit_tle_lazy_load : bool }.

(** Field names of RuntimeConfiguration, config.py:25-58, in declaration order. *)
Definition k_ellip := lit "footprint_points_elliptical"%string.
(** config.py:28. *)
Definition k_side := lit "footprint_points_rectangular_side"%string.
(** config.py:31. *)
Definition k_pos := lit "repeat_cycle_delta_position_m"%string.
(** config.py:36. *)
Definition k_vel := lit "repeat_cycle_delta_velocity_m_per_s"%string.
(** config.py:41. *)
Definition k_elev := lit "repeat_cycle_search_elevation_deg"%string.
(** config.py:44. *)
Definition k_dur := lit "repeat_cycle_search_duration_days"%string.
(** config.py:47. *)
Definition k_lazy := lit "repeat_cycle_lazy_load"%string.
(** config.py:50. *)
Definition k_track := lit "repeat_cycle_for_orbit_track"%string.
(** config.py:54. *)
Definition k_events := lit "repeat_cycle_for_observation_events"%string.
(** config.py:58. *)
Definition k_tle := lit "orbit_tle_lazy_load"%string.

(** [RuntimeConfiguration()], config.py:93, with the defaults of 25-60. *)
Definition default_config : config :=
  Config 32 8 (Fin 10000) (Fin 10) (Fin 88) (Fin 30) true true true true.

(** Equality of strings used as keyword names (config.py:81). *)
Fixpoint streqb (a b : pystr) : bool :=
  match a, b with
  | [], [] => true
  | x :: a', y :: b' => (x =? y) && streqb a' b'
  | _, _ => false
  end.

(** [**config] (config.py:81): every key must be a string. *)
Fixpoint str_keys (l : list (yval * yval)) : bool :=
  match l with
  | [] => true
  | (YStr _, _) :: r => str_keys r
  | _ :: _ => false
  end.

(** Keyword lookup in the mapping built by PyYAML (config.py:77-81): when a key
    is repeated the last occurrence wins. *)
Fixpoint lookup (k : pystr) (l : list (yval * yval)) : option yval :=
  match l with
  | [] => None
  | (YStr s, v) :: r =>
      match lookup k r with
      | Some w => Some w
      | None => if streqb k s then Some v else None
      end
  | _ :: r => lookup k r
  end.

Section Config.

(** pydantic's lax conversions of strings and of integers to float; called from
    config.py:81, quantified over in every theorem. *)
Variable str_int : pystr -> option Z.
Variable str_float : pystr -> option num.
Variable str_bool : pystr -> option bool.
Variable int_float : Z -> option num.

(** Lax [int] field (config.py:25-30): integers, booleans, integral floats and
    numeric strings. *)
Definition coerce_int (v : yval) : option Z :=
  match v with
  | YInt n => Some n
  | YBool b => Some (if b then 1 else 0)
  | YFloat (Fin q) =>
      if (Qnum q mod Zpos (Qden q) =? 0) then Some (Qnum q / Zpos (Qden q)) else None
  | YStr s => str_int s
  | _ => None
  end.

(** Lax [float] field (config.py:31-46). *)
Definition coerce_float (v : yval) : option num :=
  match v with
  | YInt n => int_float n
  | YBool b => Some (Fin (if b then 1 else 0))
  | YFloat x => Some x
  | YStr s => str_float s
  | _ => None
  end.

(** Lax [bool] field (config.py:47-60): booleans, 0/1 and the usual words. *)
Definition coerce_bool (v : yval) : option bool :=
  match v with
  | YBool b => Some b
  | YInt 0 => Some false
  | YInt 1 => Some true
  | YFloat (Fin q) => if Qeq_bool q 0 then Some false else if Qeq_bool q 1 then Some true else None
  | YStr s => str_bool s
  | _ => None
  end.

(** [ge=m] (config.py:26, 29). *)
Definition check_ge (m n : Z) : option Z := if (m <=? n) then Some n else None.

(** [gt=0] (config.py:34, 39, 42); false for NaN. *)
Definition check_gt0 (x : num) : option num :=
  match x with
  | Fin q => if Qle_bool q 0 then None else Some x
  | PInf => Some x
  | NInf | NaN => None
  end.

(** Monadic composition for the conversions above (pydantic runs the
    constraints of config.py:25-46 after the type conversion). *)
Definition andthen {A B} (x : option A) (f : A -> option B) : option B :=
  match x with Some a => f a | None => None end.

(** One field: absent gives the default unvalidated, present is converted and
    checked (config.py:25-60, pydantic's [validate_default=False]). *)
Definition field {A} (l : list (yval * yval)) (k : pystr) (dflt : A)
    (conv : yval -> option A) : option A :=
  match lookup k l with None => Some dflt | Some v => conv v end.

(** [RuntimeConfiguration] of keyword arguments [l] (config.py:81): unknown keywords are
    ignored (pydantic's default); any failing field raises ValidationError. *)
Definition construct (l : list (yval * yval)) : pyres config :=
  let d := default_config in
  match
    andthen (field l k_ellip 32 (fun v => andthen (coerce_int v) (check_ge 4))) (fun a =>
    andthen (field l k_side 8 (fun v => andthen (coerce_int v) (check_ge 1))) (fun b =>
    andthen (field l k_pos (Fin 10000) (fun v => andthen (coerce_float v) check_gt0)) (fun c =>
    andthen (field l k_vel (Fin 10) (fun v => andthen (coerce_float v) check_gt0)) (fun e =>
    andthen (field l k_elev (Fin 88) (fun v => andthen (coerce_float v) check_gt0)) (fun f =>
    andthen (field l k_dur (Fin 30) coerce_float) (fun g =>
    andthen (field l k_lazy true coerce_bool) (fun h =>
    andthen (field l k_track true coerce_bool) (fun i =>
    andthen (field l k_events true coerce_bool) (fun j =>
    andthen (field l k_tle true coerce_bool) (fun k =>
    Some (Config a b c e f g h i j k)))))))))))
  with
  | Some c => Ok c
  | None => Raise ValidationError
  end.

(** [except ValidationError -> ConfigError], config.py:80-83. *)
Definition wrap_validation (r : pyres config) : pyres config :=
  match r with Raise ValidationError => Raise ConfigError | _ => r end.

(** [RuntimeConfiguration] applied to the unpacked document (config.py:81):
    a non-mapping or a non-string key is a TypeError. *)
Definition construct_doc (v : yval) : pyres config :=
  match v with
  | YMap l => if str_keys l then construct l else Raise TypeError
  | _ => Raise TypeError
  end.

(** [load_yaml_config], config.py:63-83. *)
Definition load_yaml_config (f : file) : pyres config :=
  match f with
  | Missing => Raise ConfigError
  | Unopenable => Raise OSError
  | Undecodable => Raise ValueError
  | ParserErr => Raise ConfigError
  | OtherYamlErr => Raise YamlError
  | Doc v => wrap_validation (construct_doc v)
  end.

(** The module-level [rc], config.py:86-93; a raised exception is an exception
    of [import tatc]. *)
Definition import_rc (f : file) : pyres config :=
  match load_yaml_config f with
  | Raise ConfigError => Ok default_config
  | r => r
  end.

End Config.

(** src/tatc/resources/defaults.yml as parsed by PyYAML. resources/defaults.yml:1-15. *)
Definition defaults_yml : yval :=
  YMap [ (YStr k_ellip, YInt 32); (YStr k_side, YInt 8);
         (YStr k_pos, YInt 10000); (YStr k_vel, YInt 10);
         (YStr k_elev, YInt 88); (YStr k_dur, YInt 30);
         (YStr k_lazy, YBool true); (YStr k_track, YBool true);
         (YStr k_events, YBool true); (YStr k_tle, YBool true) ].
